(** Every moment of every operation. *)
From Verif Require Import Base ListFacts HashModel HashProofs SpecHash HashTrace ElfModel ToolModel CoreModel TraceModel SpecCore SpecRun SpecTrace ToolProofs CoreMaps CoreRel CoreLib CoreWrap CoreStep CoreLoop CoreMain CoreSpec CoreFacts CoreHist CoreMicro TraceErase TraceProofs TraceWrap.

Lemma subseq_In {A} (l1 l2 : list A) : subseq l1 l2 -> forall x, In x l1 -> In x l2.
Proof. induction 1 as [|y l1 l2 H IH|y l1 l2 H IH]; intros x Hx; [auto| |right; auto]. destruct Hx as [->|Hx]; [left; auto|right; auto]. Qed.

(** one state for every moment *)
Lemma trail_family (le : astate -> astate -> Prop) (sl : astate -> Z -> Z -> Prop) (le_refl : forall a, le a a)
    (le_trans : forall a b c, le a b -> le b c -> le a c) (sl_mono : forall a b x y, le a b -> sl a x y -> sl b x y) a v ws a' : trail le sl a v ws a' ->
  exists L : nat -> astate, (forall k, le a (L k) /\ le (L k) a') /\ (forall j k, (j <= k)%nat -> le (L j) (L k)) /\
    (forall k, good (L k) (vapplys (firstn k ws) v)) /\ (forall k x y, In (WSlot x y) (firstn k ws) -> sl (L k) x y).
Proof.
  induction 1 as [a v G|a v w ws a1 a' G L S T IH|a v ws a1 a' G L T IH].
  - exists (fun _ => a). split; [auto|]. split; [auto|]. split; intros k; destruct k; cbn; auto; intros x y [].
  - destruct IH as (M & A & B & C & D). exists (fun k => match k with O => a | S j => M j end).
    assert (LM : forall k, le a (M k)) by (intros k; eapply le_trans; [exact L|apply A]).
    assert (Ha : le a a') by (eapply le_trans; [apply (LM O)|apply A]).
    split; [intros [|k]; split; auto; apply A|]. split; [intros [|j] [|k] Hjk; auto; [lia|apply B; lia]|].
    split; [intros [|k]; [exact G|exact (C k)]|]. intros [|k] x y; [intros []|]. cbn. intros [H|H]; [|auto].
    eapply sl_mono; [apply LM|]. apply S. exact H.
  - destruct IH as (M & A & B & C & D). exists M. split; [|auto]. intros k. split; [eapply le_trans; [exact L|apply A]|apply A].
Qed.

Section Moments.
Context (e : env) (ex : lmap -> cstr -> option Z) (rl : lmap -> list (Z * cstr)).
Context (EO : env_ok e) (fl : lfilter) (maps : list lmap).
Notation abind := (abind ins_c ex).
Notation abinds := (abinds ins_c ex).
Notation amain := (amain ins_c ex e).
Notation abinds_user := (abinds_user ins_c ex e).
Notation ainit := (ainit ins_c ex e).
Notation awrap := (awrap ins_c ex e).
Notation srel := (srel e ex rl True).
Notation rel := (rel e ex rl True).
Notation memf := (memf rl).
Notation sl := (sl rl fl maps).
Notation fr := (fr fl maps).
Notation TR := (trail wle sl).
Let Hps := eo_ps e EO.

Lemma wrap_body_done_tr rec rec' st a ch todo ubs tool st' c ws : mir_rec rec rec' ->
  srel st a ch todo -> a_main a = true -> fresh_call e st a ubs -> hok (s_b st) -> fr st ->
  wrap_body_t e rec st ubs tool = Ok ((st', c), ws) -> TR a (vis_of st) ws (fst (abinds (ause a (tool_of tool)) (tool_of tool) ubs)).
Proof.
  intros HR S Hm HF HK Hfr E. unfold wrap_body_t, gotcha_init_t in E. rewrite (sr_init _ _ _ _ _ _ _ _ S) in E. tb E as st1 w1 w2 C. apply tret_Ok in C. destruct C as [<- ->]. cbn [app].
  rewrite <- (abinds_user_eq ex e (tool_of tool) ubs (ause a (tool_of tool)) (or_intror Hm)).
  eapply (wrap_tool_tr e ex rl EO fl maps rec rec' true); eauto.
  - intros u _. apply main_ok_done.
  - intros u _. apply main_tr_done.
Qed.

Lemma main_tr_full rec rec' mm n : mir_rec rec rec' -> main_tr e ex rl fl maps (wrap_body_t e rec) mm n.
Proof.
  intros HR st a ch todo st' ws S _ HK HF E. destruct (cstr_dec n n_main) as [->|D].
  2:{ exact (main_tr_other e ex rl fl maps _ false n D st a ch todo st' ws S ltac:(discriminate) HK HF E). }
  destruct (a_main a) eqn:Hm; [exact (main_tr_done e ex rl fl maps _ n_main st a ch todo st' ws S (fun _ => Hm) HK HF E)|].
  unfold wrap_main_t in E. rewrite strcmp_main, cstr_eqb_refl, (sr_main _ _ _ _ _ _ _ _ S), Hm in E. cbn [andb negb] in E.
  set (st0 := mkSt (s_init st) true (s_b st) (s_l st) (s_p st)) in *.
  set (a0 := mkA (a_init a) true (a_tools a) (a_stack a) (a_orig a) (a_maps a)).
  assert (S0 : srel st0 a0 ch todo).
  { constructor; cbn; try apply S; auto. intros _. discriminate. }
  assert (Hold : forall m x, In x (a_stack a m) -> ~ In (en_handle x) [e_h_libc e; e_h_main e] /\ ~ In (en_wrapper x) [e_w_libc e; e_w_main e]).
  { intros m x Hx. destruct (stack_binding _ _ _ _ _ _ _ _ _ _ S Hx) as (i & ib & _ & A & B). pose proof (sr_int _ _ _ _ _ _ _ _ S I Hm _ _ A) as H. rewrite B in H. exact H. }
  assert (FC0 : fresh_call e st0 a0 (libc_binds e)).
  { unfold fresh_call, libc_binds. cbn [map ub_handle ub_name ub_wrapper]. repeat (split; [solve [repeat constructor; cbn; tauto]|]).
    split; [|split; [left; reflexivity|split; [repeat constructor; cbn; tauto|]]].
    - intros i ib u Hi [<-|[]]. cbn. pose proof (sr_int _ _ _ _ _ _ _ _ S I Hm _ _ Hi) as [H _]. cbn in H. intuition.
    - intros u x [<-|[]] Hx. cbn in *. pose proof (Hold _ _ Hx) as [_ H]. cbn in H. intuition. }
  destruct (wrap_body_done e ex rl EO rec' True st0 a0 ch todo (libc_binds e) (Some n_gotcha) S0 eq_refl (fun _ => FC0)) as (st1 & ch1 & c1 & E1 & S1 & B1 & M1).
  tb E as [st1' c1'] w1 w2 C1. destruct (wrap_body_mir e rec rec' HR st0 (libc_binds e) (Some n_gotcha) HK) as [HM1 HH1]. destruct (mir_Ok _ _ _ _ _ _ HM1 C1) as [E1' V1].
  rewrite E1 in E1'. injection E1' as <- <-. cbn [fst] in V1. pose proof (HH1 _ _ E1) as HK1. pose proof (fr_memf rl fl maps _ st0 st1 M1 HF) as HF1.
  pose proof (wrap_body_done_tr rec rec' st0 a0 ch todo (libc_binds e) (Some n_gotcha) _ _ _ HR S0 eq_refl FC0 HK HF C1) as T1.
  cbn [tool_of] in S1, M1, T1. set (a1 := fst (abinds (ause a0 n_gotcha) n_gotcha (libc_binds e))) in *.
  assert (Hm1 : a_main a1 = true) by (unfold a1; destruct (abinds_frame ex n_gotcha (libc_binds e) (ause a0 n_gotcha)) as (-> & _); reflexivity).
  assert (Hst1 : forall m x, In x (a_stack a1 m) -> In x (a_stack a m) \/ (m = n_libc_start_main /\ x = mkE n_gotcha (e_w_libc e) (e_h_libc e))).
  { intros m x Hx. apply abinds_new in Hx. cbn [ause a_stack a0] in Hx. destruct Hx as [Hx|(u & [<-|[]] & A & B)]; auto. }
  assert (FC1 : fresh_call e st1 a1 (main_binds e)).
  { unfold fresh_call, main_binds. cbn [map ub_handle ub_name ub_wrapper]. split; [repeat constructor; cbn; tauto|].
    split; [|split; [left; auto|split; [repeat constructor; cbn; tauto|]]].
    - intros i ib u Hi [<-|[]]. cbn [ub_handle].
      destruct (wr_cover _ _ _ _ (sr_w _ _ _ _ _ _ _ _ S1 I) i) as [Ht|[m Hc]]; [eapply nth_error_Some_lt; eauto| |].
      + destruct (br_todo _ _ _ _ _ (sr_b _ _ _ _ _ _ _ _ S) i Ht) as [Hx _]. unfold inx in Hx.
        destruct (nth_error (b_ib (s_b st)) i) as [ib0|] eqn:E0; [|discriminate].
        destruct (bext_user (s_b st) (s_b st1) _ _ _ _ i ib0 (sr_b _ _ _ _ _ _ _ _ S) B1 E0) as (ib' & A & B).
        assert (ib' = ib) by congruence. subst ib'. rewrite B. pose proof (sr_int _ _ _ _ _ _ _ _ S I Hm _ _ E0) as [H _]. cbn in H. intuition.
      + destruct (chain_entry _ _ _ _ _ _ _ _ _ _ _ S1 Hc Hi) as (x & Hx & ->). cbn. apply Hst1 in Hx. destruct Hx as [Hx|[_ ->]].
        * pose proof (Hold _ _ Hx) as [H _]. cbn in H. intuition.
        * cbn. apply (handles_neq e EO).
    - intros u x [<-|[]] Hx. cbn in *. apply Hst1 in Hx. destruct Hx as [Hx|[H _]]; [|exfalso; revert H; apply names_neq].
      pose proof (Hold _ _ Hx) as [_ H]. cbn in H. intuition. }
  tb E as [st2' c2'] w3 w4 C2. apply tret_Ok in E. destruct E as [_ ->]. rewrite app_nil_r.
  pose proof (wrap_body_done_tr rec rec' st1 a1 ch1 todo (main_binds e) (Some n_gotcha) _ _ _ HR S1 Hm1 FC1 HK1 HF1 C2) as T2. cbn [tool_of] in T2.
  assert (Ea : amain a n_main = fst (abinds (ause a1 n_gotcha) n_gotcha (main_binds e))).
  { unfold SpecCore.amain. rewrite cstr_eqb_refl, Hm. reflexivity. }
  rewrite Ea. eapply tr_mv; [apply (srel_good e ex rl _ _ _ _ S)|apply (wle_same a a0); reflexivity|]. eapply trail_app; [exact T1|exact V1|exact T2].
Qed.

(** *** before the first API call *)
Lemma prel_good st a : prel e ex rl st a -> good a (vis_of st).
Proof. intros P n. rewrite (pr_as _ _ _ _ _ P). exact I. Qed.
Lemma rel_good st a : rel st a -> good a (vis_of st).
Proof. intros [P|[ch S]]; [apply prel_good; auto|eapply srel_good; eauto]. Qed.

Lemma gotcha_init_tr rec rec' st a st' ws : mir_rec rec rec' -> prel e ex rl st a -> hok (s_b st) -> fr st ->
  gotcha_init_t e (wrap_body_t e rec) st = Ok (st', ws) -> TR a (vis_of st) ws (ainit a).
Proof.
  intros HR P HK HF E. unfold gotcha_init_t in E. rewrite (pr_i _ _ _ _ _ P) in E. tl E as st0 C0. unfold setup_hash_tables in C0. cbn [s_l s_b s_init s_main s_p] in C0.
  destruct (create_spec (K:=lkey) (D:=nat) (e_ps e) 128 link_map_hash link_map_cmp Hps ltac:(lia)) as (lt & Elt & Ilt & _). rewrite Elt in C0. cbn [bind] in C0.
  destruct (smap_create (e_ps e) 4096 Hps ltac:(lia)) as (ft & Eft & Hft). rewrite Eft in C0. cbn [bind] in C0.
  destruct (smap_create (e_ps e) 128 Hps ltac:(lia)) as (nt & Ent & Hnt). rewrite Ent in C0. cbn [bind] in C0. injection C0 as C0.
  set (a0 := mkA true (a_main a) (a_tools a) (a_stack a) (a_orig a) (a_maps a)).
  assert (S0 : srel st0 a0 (fun _ => []) []).
  { rewrite <- C0. constructor; cbn; [reflexivity|reflexivity|rewrite (pr_m _ _ _ _ _ P), (pr_am _ _ _ _ _ P); reflexivity|apply (pr_maps _ _ _ _ _ P)|apply (pr_lib _ _ _ _ _ P)| | | | | |].
    - rewrite (pr_b _ _ _ _ _ P). cbn. constructor; cbn.
      + exists []. constructor; cbn; try constructor. intros t [].
      + rewrite (pr_at _ _ _ _ _ P). reflexivity.
      + intros i Hi. lia.
      + intros n. rewrite (pr_as _ _ _ _ _ P). constructor.
      + reflexivity.
      + constructor.
      + intros n i [].
      + intros i [].
      + constructor.
      + intros i ib Hi. destruct i; discriminate.
      + exact Hft.
    - exists (fun _ => None). split; [auto|]. split; [discriminate|]. intros n. rewrite (pr_as _ _ _ _ _ P). tauto.
    - intros n _. apply (pr_ao _ _ _ _ _ P).
    - rewrite (pr_l _ _ _ _ _ P). exists [], []. split; [exact Ilt|]. intros k i [].
    - intros f. rewrite (pr_b _ _ _ _ _ P). cbn. constructor; cbn.
      + intros i ib Hi. destruct i; discriminate.
      + auto.
      + intros i [].
      + intros i Hi. lia.
    - intros f _ i ib Hi. rewrite (pr_b _ _ _ _ _ P) in Hi. destruct i; discriminate. }
  assert (Hb : b_ib (s_b st0) = [] /\ b_handles (s_b st0) = (fun _ => None) /\ s_init st0 = true /\ s_p st0 = s_p st).
  { rewrite <- C0. cbn. rewrite (pr_b _ _ _ _ _ P). auto. }
  destruct Hb as (Hb1 & Hb2 & Hb3 & Hb4).
  assert (V0 : veq (vis_of st) (vis_of st0)).
  { unfold vis_of. rewrite Hb1, Hb2, Hb4, (pr_b _ _ _ _ _ P). apply veq_refl. }
  clear C0.
  tb E as [st1 c] w1 w2 C1. apply tret_Ok in E. destruct E as [_ ->]. rewrite app_nil_r.
  unfold wrap_body_t, gotcha_init_t in C1. rewrite Hb3 in C1. tb C1 as st2 w2 w3 C2. apply tret_Ok in C2. destruct C2 as [<- ->]. cbn [app].
  pose proof (eo_handles e EO) as HH. unfold internal_handles in HH. pose proof (eo_wrappers e EO) as HW. unfold internal_wrappers in HW.
  rewrite !NoDup_cons_iff in HH, HW. cbn [In] in HH, HW.
  pose proof (wrap_tool_tr e ex rl EO fl maps rec rec' false st0 a0 (fun _ => []) [] (dl_binds e) (Some n_gotcha) st1 c w3 HR S0) as T.
  assert (Ea : abinds_user (ause a0 n_gotcha) n_gotcha (dl_binds e) = abinds (ause a0 n_gotcha) n_gotcha (dl_binds e)).
  { apply abinds_user_eq. left. intros u [<-|[<-|[]]]; cbn; apply names_neq. }
  cbn [tool_of] in T. rewrite Ea in T.
  assert (Ei : ainit a = fst (abinds (ause a0 n_gotcha) n_gotcha (dl_binds e))) by (unfold SpecCore.ainit; rewrite (pr_ai _ _ _ _ _ P); reflexivity).
  rewrite Ei. eapply tr_mv; [apply prel_good; exact P|apply (wle_same a a0); reflexivity|]. eapply trail_veq; [|apply veq_sym; exact V0]. apply T.
  - unfold fresh_call, dl_binds. cbn [map ub_handle ub_wrapper ub_name]. split; [|split; [|split; [|split]]].
    + rewrite !NoDup_cons_iff. cbn. intuition.
    + intros i ib u Hi. rewrite Hb1 in Hi. destruct i; discriminate.
    + right. intros u [<-|[<-|[]]]; cbn; intuition.
    + constructor; [|repeat constructor; cbn; tauto]. cbn. intros [H|[]]. injection H as H _. revert H. cbn. intros. discriminate.
    + intros u x _. cbn. rewrite (pr_as _ _ _ _ _ P). intros [].
  - discriminate.
  - intros u [<-|[<-|[]]]; apply main_ok_other; cbn; apply names_neq.
  - intros u [<-|[<-|[]]]; apply main_tr_other; cbn; apply names_neq.
  - unfold hok. rewrite Hb2. discriminate.
  - unfold TraceWrap.fr. rewrite Hb4. exact HF.
  - exact C1.
Qed.

Lemma init_any_tr rec rec' st a st' ws : mir_rec rec rec' -> rel st a -> hok (s_b st) -> fr st ->
  gotcha_init_t e (wrap_body_t e rec) st = Ok (st', ws) -> TR a (vis_of st) ws (ainit a).
Proof.
  intros HR [P|[ch S]] HK HF E; [eapply gotcha_init_tr; eauto|]. unfold gotcha_init_t in E. rewrite (sr_init _ _ _ _ _ _ _ _ S) in E. apply tret_Ok in E. destruct E as [_ ->].
  unfold SpecCore.ainit. rewrite (sr_ainit _ _ _ _ _ _ _ _ S). apply tr_nil. eapply srel_good; eauto.
Qed.

Lemma wrap_tr st a ubs tool st' c ws : rel st a -> fresh_bindings e a ubs -> hok (s_b st) -> fr st ->
  gotcha_wrap_t e st ubs tool = Ok ((st', c), ws) -> TR a (vis_of st) ws (fst (awrap a ubs tool)).
Proof.
  intros R HFb HK HF E. unfold gotcha_wrap_t in E. cbn [wrap_n_t] in E. unfold wrap_body_t at 1 in E. tb E as st1' w1 w2 C1.
  destruct (init_any e ex rl EO (wrap_n e 1) True st a R) as (st1 & ch1 & E1 & S1 & M1 & B1). cbn [wrap_n] in E1.
  pose proof (wrap_n_mir e 1) as HR1. pose proof (wrap_n_mir e 2) as HR2. cbn [wrap_n_t wrap_n] in HR1, HR2.
  destruct (mir_Ok _ _ _ _ _ _ (init_mir e _ _ HR2 st HK) C1) as [E1' V1]. assert (st1' = st1) by congruence. subst st1'.
  pose proof (init_any_tr _ _ st a st1 w1 HR1 R HK HF C1) as T1. eapply trail_app; [exact T1|exact V1|].
  unfold SpecCore.awrap. change (match tool with Some n => n | None => n_unspecified end) with (tool_of tool).
  eapply (wrap_tool_tr e ex rl EO fl maps _ _ false st1 (ainit a) ch1 [] ubs tool st' c w2 HR2 S1); try exact E.
  - destruct HFb as [H1 H2 H3 H4 H5]. split; [auto|]. split; [|split; [|split]]; auto.
    + intros i ib u Hi Hu. destruct (wr_cover _ _ _ _ (sr_w _ _ _ _ _ _ _ _ S1 I) i) as [[]|[m Hc]]; [eapply nth_error_Some_lt; eauto|].
      destruct (chain_entry _ _ _ _ _ _ _ _ _ _ _ S1 Hc Hi) as (x & Hx & ->). cbn. apply ainit_new in Hx. destruct Hx as [Hx|[_ Hx]]; [eapply H3; eauto|].
      intros Eh. rewrite Eh in Hx. apply (proj1 (H5 u Hu)). auto.
    + right. intros u Hu. destruct (H5 u Hu) as [A B]. unfold internal_handles, internal_wrappers in *. cbn in *. tauto.
    + intros u x Hu Hx. apply ainit_new in Hx. destruct Hx as [Hx|[Hx _]]; [eauto|]. intros Eh. rewrite Eh in Hx. apply (proj2 (H5 u Hu)). auto.
  - discriminate.
  - intros u _. apply (main_ok_full e ex rl EO).
  - intros u _. eapply main_tr_full. exact HR1.
  - eapply (init_hok e _ _ HR2); [exact E1|exact HK].
  - eapply fr_memf; eauto.
Qed.

(** *** after dlopen *)
(** the same stacks; original functions are found one after the other *)
Definition ole (a b : astate) : Prop := forall n, a_stack b n = a_stack a n /\ (a_orig b n = a_orig a n \/ a_orig a n = None).
Lemma ole_refl a : ole a a.
Proof. intros n. auto. Qed.
Lemma ole_trans a b c : ole a b -> ole b c -> ole a c.
Proof.
  intros H K n. destruct (H n) as [S1 O1], (K n) as [S2 O2]. split; [congruence|]. destruct O1 as [O1|O1]; [|auto]. destruct O2 as [O2|O2]; [left|right]; congruence.
Qed.
Notation FR := (trail ole (fun _ _ _ => False)).

Lemma per_binding_shape k d st st' c ws : per_binding_t e k d st = Ok ((st', c), ws) -> (length ws <= 1)%nat /\ noslot ws.
Proof.
  unfold per_binding_t. intros E. destruct k as [k|]; [|discriminate]. destruct d as [b|]; [|discriminate]. tl E as b' B1. tb E as [st1 f] w1 w2 B2. apply prepare_shape in B2.
  destruct f; [tl E as [t x] B3|]; apply tret_Ok in E; destruct E as [_ ->]; rewrite app_nil_r; exact B2.
Qed.

Lemma resolve_tr st a ch st1 c ws : srel st a ch [] -> hok (s_b st) ->
  foreach_hash_entry_t (fun s => b_nf (s_b s)) (per_binding_t e) st = Ok ((st1, c), ws) -> FR a (vis_of st) ws (aresolve ex a) /\ noslot ws.
Proof.
  intros S HK E0. destruct (sr_nf _ _ _ _ _ _ _ _ S) as (g & (l & cc & I & KI & ND & Eg) & G2 & G3).
  set (Q := fun (sw : state * list wevent) (kept rest : list (cstr * nat)) =>
    (exists o, srel (fst sw) (with_orig a o) ch [] /\ FR a (vis_of st) (snd sw) (with_orig a o) /\
       (forall n, o n = if existsb (fun p => cstr_eqb (fst p) n) rest then None else resolved ex a n)) /\
    NoDup (map fst rest) /\ (forall k d, In (k, d) rest -> In d (ch k) /\ a_orig a k = None) /\
    hok (s_b (fst sw)) /\ veq (vapplys (snd sw) (vis_of st)) (vis_of (fst sw)) /\ noslot (snd sw)).
  assert (Hex : forall n (r : list (cstr * nat)), existsb (fun p => cstr_eqb (fst p) n) r = true <-> In n (map fst r)).
  { intros n r. rewrite existsb_exists, in_map_iff. split; intros (x & A & B); exists x.
    - apply cstr_eqb_ok in B. auto.
    - split; [auto|]. apply cstr_eqb_ok. auto. }
  unfold foreach_hash_entry_t, foreach_hash_entry in E0. cbn [fst] in E0. rewrite (inv_head _ _ _ _ _ I) in E0.
  destruct (foreach_del anyk strhash libc_strcmp (strcmp_cmp_ok _ _) (fun x : state * list wevent => b_nf (s_b (fst x)))
      (fun k d x => do ' ((s, r), w) <- per_binding_t e k d (fst x); Ok ((s, snd x ++ w), r)) Q)
      with (rest := cc) (lr := l) (kept := @nil (cstr * nat)) (lk := @nil nat) (s := (st, @nil wevent)) (fuel := length (ht_table (b_nf (s_b st))))
    as ([st' w'] & kept' & l' & E & _ & HQ & _ & _ & _).
  - intros [s w] kept k d rest ((o & So & To & Ho) & Hnd & Hin & HH & HV & HN) _. cbn [fst snd] in *. inversion Hnd as [|? ? Hnk Hnd' Enk]; subst.
    destruct (Hin k d (or_introl eq_refl)) as [Hd Hok].
    assert (Hok' : o k = None) by (rewrite Ho; cbn; rewrite cstr_eqb_refl; reflexivity).
    destruct (per_binding_spec e ex rl True s a o ch k d So Hd Hok') as (s' & Es & Ss & _ & _ & _ & _ & _ & Hc).
    pose proof (per_binding_mir e (Some k) (Some d) s HH) as M. rewrite Es in M. cbn [mir] in M. destruct M as (w1 & Ew & V1). cbn [fst] in V1.
    destruct (per_binding_shape _ _ _ _ _ _ Ew) as [L1 N1]. pose proof (per_binding_hok _ _ _ _ _ _ Es HH) as HH'.
    exists (s', w ++ w1). rewrite Ew. cbn [bind fst snd]. split; [reflexivity|].
    assert (HS : exists o', srel s' (with_orig a o') ch [] /\ FR a (vis_of st) (w ++ w1) (with_orig a o') /\ forall n, o' n = if existsb (fun p => cstr_eqb (fst p) n) rest then None else resolved ex a n).
    { eexists. split; [exact Ss|]. split.
      - eapply trail_app; [exact To|exact HV|]. apply trail_one; auto.
        + exact (srel_good e ex rl _ _ _ _ So).
        + eapply good_veq; [apply veq_sym; exact V1|]. exact (srel_good e ex rl _ _ _ _ Ss).
        + intros n. cbn. split; [reflexivity|]. destruct (cstr_dec n k) as [->|D]; [right; exact Hok'|rewrite cupd_neq by auto; auto].
      - intros n. destruct (cstr_dec n k) as [->|D].
        + rewrite cupd_eq. destruct (existsb (fun p => cstr_eqb (fst p) k) rest) eqn:Ex; [apply Hex in Ex; contradiction|].
          unfold resolved, aresolve. cbn [a_orig]. rewrite Hok. destruct (a_stack a k) eqn:Est; [|reflexivity].
          exfalso. apply (ch_nil e ex rl True s _ ch [] k So) in Est. rewrite Est in Hd. destruct Hd.
        + rewrite cupd_neq by auto. rewrite Ho. cbn. rewrite (cstr_eqb_neq k n) by congruence. reflexivity. }
    assert (HV' : veq (vapplys (w ++ w1) (vis_of st)) (vis_of s')) by (rewrite (vapplys_app w); eapply veq_trans; [apply vapplys_veq; exact HV|exact V1]).
    assert (HN' : noslot (w ++ w1)) by (intros x y Hx; apply in_app_or in Hx; destruct Hx; [eapply HN|eapply N1]; eauto).
    assert (Hin' : forall k0 d0, In (k0, d0) rest -> In d0 (ch k0) /\ a_orig a k0 = None) by (intros; apply Hin; right; auto).
    assert (HQ' : forall kk, Q (s', w ++ w1) kk rest) by (intros kk; unfold Q; cbn [fst snd]; repeat (split; [assumption|]); assumption).
    destruct Hc as [[_ Hc]|Hc]; [left; auto|right; auto].
  - unfold Q. cbn [fst snd]. split; [|split; [exact ND|split; [|split; [exact HK|split; [apply veq_refl|apply noslot_nil]]]]].
    + exists (a_orig a). assert (Ea : with_orig a (a_orig a) = a) by (destruct a; reflexivity). rewrite Ea. split; [exact S|]. split; [apply tr_nil; exact (srel_good e ex rl _ _ _ _ S)|].
      intros n. destruct (existsb (fun p => cstr_eqb (fst p) n) cc) eqn:Ex.
      * apply Hex in Ex. apply in_map_iff in Ex. destruct Ex as ([k d] & <- & Hx). cbn.
        destruct (a_orig a k) eqn:Eo; [|reflexivity]. exfalso.
        assert (Hg : g k = None) by (apply G3; right; congruence). rewrite <- Eg in Hg.
        rewrite (aget_In cstr_eqb cstr_eqb_ok cc k d ND Hx) in Hg. discriminate.
      * unfold resolved, aresolve. cbn [a_orig]. destruct (a_orig a n) eqn:Eo; [reflexivity|].
        destruct (a_stack a n) eqn:Est; [reflexivity|]. exfalso.
        assert (Hg : g n <> None) by (rewrite G3; intros [H|H]; congruence). rewrite <- Eg in Hg.
        destruct (aget cstr_eqb cc n) as [v|] eqn:Ev; [|congruence]. apply (aget_Some cstr_eqb cstr_eqb_ok) in Ev.
        assert (In n (map fst cc)) by (apply in_map_iff; exists (n, v); auto). apply Hex in H. congruence.
    + intros k d Hx. pose proof (aget_In cstr_eqb cstr_eqb_ok cc k d ND Hx) as Hg. rewrite Eg in Hg. split; [auto|].
      destruct (a_orig a k) eqn:Eo; [|reflexivity]. exfalso. assert (g k = None) by (apply G3; right; congruence). congruence.
  - exact I.
  - reflexivity.
  - exact (Forall2_length _ _ _ (inv_cont _ _ _ _ _ I)).
  - exact KI.
  - exact ND.
  - rewrite <- (Forall2_length _ _ _ (inv_cont _ _ _ _ _ I)). exact (l_le_table _ _ I).
  - rewrite E in E0. cbn [bind] in E0. injection E0 as <- <- <-. destruct HQ as ((o & So & To & Ho) & _ & _ & _ & _ & HN). cbn [fst snd] in *. split; [|exact HN].
    assert (Hr : forall n, o n = resolved ex a n) by exact Ho.
    eapply trail_move; [exact To| |].
    + intros n. cbn. split; [reflexivity|]. left. symmetry. apply Hr.
    + intros v G n. specialize (G n). cbn in G. rewrite Hr in G. exact G.
Qed.

Lemma finish_tr st a ch st' ws : srel st a ch [] -> hok (s_b st) -> fr st -> dlopen_finish_t e st = Ok (st', ws) ->
  exists w1 w2, ws = w1 ++ w2 /\ FR a (vis_of st) w1 (aresolve ex a) /\ noslot w1 /\ good (aresolve ex a) (vapplys w1 (vis_of st)) /\
    forall w, In w w2 -> exists x y, w = WSlot x y /\ sl (aresolve ex a) x y.
Proof.
  intros S HK HF E. unfold dlopen_finish_t in E. tb E as [st1 c] w1 w2 C1. exists w1, w2. split; [reflexivity|]. destruct (resolve_tr _ _ _ _ _ _ S HK C1) as [T N]. split; [exact T|]. split; [exact N|].
  destruct (resolve_loop e ex rl True st a ch S) as (st2 & E2 & S2 & P2 & _).
  pose proof (foreach_loop_mir e (vis_of st) (length (ht_table (b_nf (s_b st)))) (ht_head (b_nf (s_b st))) st [] HK (veq_refl _)) as M.
  unfold foreach_hash_entry in E2. rewrite E2 in M. destruct M as (_ & w & Ew & V). unfold foreach_hash_entry_t, foreach_hash_entry in C1. cbn [fst] in C1. rewrite Ew in C1. cbn [bind] in C1.
  injection C1 as <- <- <-. split; [eapply good_veq; [apply veq_sym; exact V|exact (srel_good e ex rl _ _ _ _ S2)]|].
  eapply (update_all_slots e ex rl fl maps); [exact S2| |eapply fn_tbl; exact S2|exact E].
  unfold TraceWrap.fr. rewrite P2. exact HF.
Qed.

Lemma sl_mono a b x y : wle a b -> sl a x y -> sl b x y.
Proof.
  intros W (m & n & A & B & C). exists m, n. split; [auto|]. split; [auto|]. apply in_map_iff in C. destruct C as (z & <- & Hz). apply in_map. eapply subseq_In; [apply W|exact Hz].
Qed.

(** a moment of an operation that is not an installation after dlopen *)
Lemma step_tr st a o st' r ws : rel st a -> fresh_op e a o -> hok (s_b st) -> fr st -> gotcha_op o -> o <> OFinish ->
  step_t e st o = Ok ((st', r), ws) -> TR a (vis_of st) ws (fst (astep ins_c ex e a o)).
Proof.
  intros R HF HK Hf G NF E. destruct o as [ubs tool|t v|t|f|libs mem| |keep mem]; cbn [gotcha_op] in G; try contradiction; cbn [step_t] in E.
  - tb E as [st1 c] w1 w2 C1. apply tret_Ok in E. destruct E as [_ ->]. rewrite app_nil_r. pose proof (wrap_tr _ _ _ _ _ _ _ R HF HK Hf C1) as T.
    cbn [SpecCore.astep]. destruct (awrap a ubs tool) as [a' ms]. exact T.
  - tb E as st1 w1 w2 C1. tl E as ts C2. apply tret_Ok in E. destruct E as [_ ->]. rewrite app_nil_r.
    pose proof (init_any_tr (wrap_n_t e 2) (wrap_n e 2) st a st1 w1 (wrap_n_mir e 2) R HK Hf C1) as T. cbn [SpecCore.astep fst].
    eapply trail_move; [exact T|apply wle_same; reflexivity|]. intros v0. apply good_same; reflexivity.
  - tb E as st1 w1 w2 C1. tl E as [c v] C2. apply tret_Ok in E. destruct E as [_ ->]. rewrite app_nil_r.
    exact (init_any_tr (wrap_n_t e 2) (wrap_n e 2) st a st1 w1 (wrap_n_mir e 2) R HK Hf C1).
Qed.
End Moments.

(** *** handle variables of reachable states point to bindings *)
Lemma step_hok e st o st' r : step e st o = Ok (st', r) -> hok (s_b st) -> hok (s_b st').
Proof.
  intros E H. destruct o as [ubs tool|t v|t|f|libs mem| |keep mem]; cbn [step] in E.
  - iba E as [st1 c]. injection E as <- _. destruct (wrap_n_mir e 3 st ubs tool H) as [_ K]. eapply K. exact B.
  - iba E as [st1 c]. injection E as <- _. unfold gotcha_set_priority, api_init in B. iba B as st2. ib B. injection B as <- _.
    pose proof (init_hok e _ _ (wrap_n_mir e 3) _ _ B0 H) as K. exact K.
  - iba E as [st1 [c v]]. injection E as <- _. unfold gotcha_get_priority, api_init in B. iba B as st2. ib B. injection B as <- _.
    exact (init_hok e _ _ (wrap_n_mir e 3) _ _ B0 H).
  - injection E as <- _. exact H.
  - injection E as <- _. exact H.
  - destruct (s_init st); [|injection E as <- _; exact H]. iba E as st1. injection E as <- _. unfold dlopen_finish in B. iba B as [st2 c].
    pose proof (foreach_loop_mir e (vis_of st) (length (ht_table (b_nf (s_b st)))) (ht_head (b_nf (s_b st))) st [] H (veq_refl _)) as M.
    unfold foreach_hash_entry in B0. rewrite B0 in M. destruct M as [M _]. apply update_all_b in B. rewrite B. exact M.
  - injection E as <- _. exact H.
Qed.
Lemma run_hok e : forall ops st st' rs, run e st ops = Ok (st', rs) -> hok (s_b st) -> hok (s_b st').
Proof.
  induction ops as [|o r IH]; intros st st' rs E H; cbn [run] in E; [injection E as <- _; auto|]. iba E as [st1 x]. iba E as [st2 xs]. injection E as <- _.
  eapply IH; [exact B0|]. eapply step_hok; eauto.
Qed.

(** *** all the moments of an operation *)
Lemma slots_good a : forall ws v, (forall w, In w ws -> exists x y, w = WSlot x y) -> good a v -> good a (vapplys ws v).
Proof.
  induction ws as [|w r IH]; intros v H G; [exact G|]. destruct (H w (or_introl eq_refl)) as (x & y & ->). cbn. apply IH; [intros; apply H; right; auto|].
  eapply good_ext; [|exact G]. reflexivity.
Qed.

Lemma op_moments e maps mem ops o st rs st' r evs :
  process_ok e maps (ops ++ [o]) -> fresh e (ops ++ [o]) -> gotcha_op o ->
  run e (init_state maps mem) ops = Ok (st, rs) -> step_t e st o = Ok ((st', r), evs) ->
  exists (l : nat -> cstr -> list entry) (orig : nat -> cstr -> option Z),
    (forall k n, subseq (stack e maps ops n) (l k n) /\ subseq (l k n) (stack e maps (ops ++ [o]) n)) /\
    (forall j k n, (j <= k)%nat -> subseq (l j n) (l k n)) /\
    (forall k n, vwired (moment st evs k) (l k n) (orig k n)) /\
    (forall k n, orig k n = original e maps (ops ++ [o]) n \/
       (o = OFinish /\ orig k n = None /\ original e maps ops n = None /\ forall x w, ~ In (WSlot x w) (firstn k evs))) /\
    (forall k x w, In (WSlot x w) (firstn k evs) ->
       exists m n, accepted (p_filter (s_p st)) (p_maps (s_p st)) m /\ slot relocs m n x /\ In w (map en_wrapper (l k n))).
Proof.
  intros P F G ER ES. pose proof (po_env _ _ _ P) as EO.
  assert (P0 : process_ok e maps ops) by (destruct P as [A B C]; constructor; auto; intros o' m Ho; apply C; apply in_or_app; auto).
  assert (F0 : fresh e ops).
  { destruct F as [A B C]. rewrite user_binds_app in A, B, C. rewrite map_app in A, B. constructor; [eapply NoDup_app_remove_r; eauto|eapply NoDup_app_remove_r; eauto|]. intros u Hu. apply C. apply in_or_app. auto. }
  destruct (run_hist e maps mem ops P0 F0) as (st0 & E0 & R0). assert (st0 = st) by congruence. subst st0.
  pose proof (run_hok e ops _ _ _ ER ltac:(unfold hok; cbn; discriminate)) as HK.
  pose proof (fresh_ops_of e (exports e) maps [o] ops F) as FO. cbn [fresh_ops] in FO. destruct FO as [FO _]. fold (history e maps ops) in FO.
  destruct (arun_agree e EO (exports e) ops (a0 maps)) as (_ & _ & AI); [apply a0_inv|apply (fresh_ops_of e (exports e) maps ops [] F0)|]. fold (history e maps ops) in AI.
  destruct (astep_agree e EO (exports e) _ o AI FO) as [EA _].
  assert (EH : history e maps (ops ++ [o]) = fst (astep ins_c (exports e) e (history e maps ops) o)).
  { rewrite <- EA. unfold history. rewrite arun_app. cbn [fst arun]. destruct (astep place (exports e) e (fst (arun place (exports e) e (a0 maps) ops)) o). reflexivity. }
  unfold stack, original. rewrite EH. set (a := history e maps ops) in *.
  assert (D : o = OFinish \/ o <> OFinish) by (destruct o; (left; reflexivity) || (right; discriminate)).
  assert (Hfr : fr (p_filter (s_p st)) (p_maps (s_p st)) st) by (split; reflexivity).
  destruct D as [->|D].
  - cbn [step_t] in ES. cbn [SpecCore.astep fst].
    assert (HN : s_init st = false -> evs = []) by (intros H; rewrite H in ES; apply tret_Ok in ES; tauto).
    destruct R0 as [R0|[ch R0]].
    + rewrite (HN (pr_i _ _ _ _ _ R0)) in *. rewrite (pr_ai _ _ _ _ _ R0). exists (fun _ n => a_stack a n), (fun _ n => a_orig a n). cbn [fst].
      split; [intros; split; apply subseq_refl|]. split; [intros; apply subseq_refl|]. split; [|split; [auto|]].
      * intros k n. unfold moment. destruct k; cbn; apply (prel_good e (exports e) relocs st a R0 n).
      * intros k x w H. destruct k; destruct H.
    + rewrite (sr_init _ _ _ _ _ _ _ _ R0) in ES. rewrite (sr_ainit _ _ _ _ _ _ _ _ R0). cbn [fst].
      tb ES as st1 w1 w2 C1. apply tret_Ok in ES. destruct ES as [_ ->]. rewrite app_nil_r.
      destruct (finish_tr e (exports e) relocs _ _ st a ch _ _ R0 HK Hfr C1) as (v1 & v2 & -> & T & N & Gd & SL).
      destruct (trail_family ole (fun _ _ _ => False) ole_refl ole_trans ltac:(auto) _ _ _ _ T) as (L & A & B & C & _).
      exists (fun _ n => a_stack a n), (fun k n => if (k <=? length v1)%nat then a_orig (L k) n else a_orig (aresolve (exports e) a) n).
      split; [intros; split; apply subseq_refl|]. split; [intros; apply subseq_refl|]. split; [|split].
      * intros k n. unfold moment. rewrite firstn_app. destruct (Nat.leb_spec k (length v1)) as [H|H].
        -- replace (k - length v1)%nat with O by lia. cbn [firstn]. rewrite app_nil_r. pose proof (C k n) as W. destruct (A k) as [A1 _]. rewrite (proj1 (A1 n)) in W. exact W.
        -- rewrite firstn_all2 by lia. rewrite (vapplys_app v1). apply (slots_good (aresolve (exports e) a)); [|exact Gd]. intros w Hw.
           destruct (SL w) as (x & y & -> & _); [|eauto]. rewrite <- (firstn_skipn (k - length v1) v2). apply in_or_app. auto.
      * intros k n. destruct (Nat.leb_spec k (length v1)) as [H|H]; [|auto]. destruct (A k) as [A1 A2]. destruct (proj2 (A2 n)) as [O2|O2]; [left; congruence|].
        right. split; [reflexivity|]. split; [exact O2|]. split; [destruct (proj2 (A1 n)); congruence|].
        intros x w Hw. rewrite firstn_app in Hw. replace (k - length v1)%nat with O in Hw by lia. cbn [firstn] in Hw. rewrite app_nil_r in Hw.
        apply (N x w). rewrite <- (firstn_skipn k v1). apply in_or_app. auto.
      * intros k x w Hw. assert (Hin : In (WSlot x w) (v1 ++ v2)) by (rewrite <- (firstn_skipn k (v1 ++ v2)); apply in_or_app; auto).
        apply in_app_or in Hin. destruct Hin as [Hin|Hin]; [exfalso; exact (N x w Hin)|]. destruct (SL _ Hin) as (x' & y' & Exy & S). injection Exy as <- <-. exact S.
  - pose proof (step_tr e (exports e) relocs EO _ _ st a o st' r evs R0 FO HK Hfr G D ES) as T.
    destruct (trail_family wle _ wle_refl wle_trans (sl_mono relocs _ _) _ _ _ _ T) as (L & A & B & C & S).
    set (a' := fst (astep ins_c (exports e) e a o)) in *. exists (fun k => a_stack (L k)), (fun _ => a_orig a').
    split; [intros k n; split; apply A|]. split; [intros j k n H; apply (B j k H)|]. split; [|split; [auto|exact S]].
    intros k n. pose proof (C k n) as W. destruct (proj2 (A k) n) as [_ [O|O]]; [rewrite O; exact W|]. rewrite O. exact I.
Qed.

Lemma vapplys_mem x : forall ws v, v_mem (vapplys ws v) x = v_mem v x \/ In (WSlot x (v_mem (vapplys ws v) x)) ws.
Proof.
  induction ws as [|w r IH]; intros v; [left; reflexivity|]. cbn [vapplys fold_left]. change (fold_left vapply r (vapply v w)) with (vapplys r (vapply v w)).
  destruct (IH (vapply v w)) as [E|E]; [|right; right; exact E]. rewrite E. destruct w as [h i|i p|y z]; cbn; [auto|auto|]. unfold fupd. destruct (Z.eqb_spec x y) as [->|]; auto.
Qed.

(** *** calls that go on while GOTCHA is at work *)
Lemma subseq_tail {A} (x : A) q2 l : subseq (x :: q2) l -> exists p1 s1, l = p1 ++ x :: s1 /\ subseq q2 s1.
Proof.
  intros H. remember (x :: q2) as l1 eqn:E. induction H as [|y l1 l2 H IH|y l1 l2 H IH]; [discriminate| |].
  - injection E as -> ->. exists [], l2. auto.
  - destruct (IH E) as (p1 & s1 & -> & S). exists (y :: p1), s1. auto.
Qed.
Lemma subseq_drop {A} (q1 q2 l : list A) : subseq (q1 ++ q2) l -> subseq q2 l.
Proof. revert l. induction q1 as [|x q1 IH]; intros l H; [exact H|]. apply IH. cbn in H. destruct (subseq_tail _ _ _ H) as (p1 & s1 & -> & S). clear H. induction p1 as [|y p1 IHp]; cbn; constructor; auto. Qed.
Lemma split_unique {A} (x : A) : forall p1 s1 p2 s2, NoDup (p1 ++ x :: s1) -> p1 ++ x :: s1 = p2 ++ x :: s2 -> p1 = p2 /\ s1 = s2.
Proof.
  induction p1 as [|y p1 IH]; intros s1 p2 s2 N E; destruct p2 as [|z p2]; cbn in *.
  - injection E as ->. auto.
  - injection E as <- ->. inversion N as [|? ? N1 _]; subst. exfalso. apply N1. apply in_or_app. right. left. auto.
  - injection E as -> <-. inversion N as [|? ? N1 _]; subst. exfalso. apply N1. apply in_or_app. right. left. auto.
  - injection E as <- E. inversion N; subst. destruct (IH _ _ _ H2 E) as [-> ->]. auto.
Qed.
Lemma vwired_at v o x : forall s, vwired v s o -> In x s ->
  exists q1 q2, s = q1 ++ x :: q2 /\ vwrappee v (en_handle x) = Some (match q2 with [] => match o with Some a => Ptr a | None => Uninit end | y :: _ => Ptr (en_wrapper y) end).
Proof.
  induction s as [|y r IH]; intros W H0; [destruct H0|]. destruct H0 as [->|H]; cbn in W.
  - exists [], r. split; [auto|apply W].
  - destruct (IH (proj2 W) H) as (q1 & q2 & -> & E). exists (y :: q1), q2. auto.
Qed.
Lemma wrapper_inj s (x y : entry) : NoDup (map en_wrapper s) -> In x s -> In y s -> en_wrapper x = en_wrapper y -> x = y.
Proof.
  induction s as [|z r IH]; intros N Hx Hy E; [destruct Hx|]. destruct Hx as [->|Hx], Hy as [->|Hy]; auto; inversion N as [|? ? N1 N2]; subst; [exfalso; apply N1; rewrite E; apply in_map; auto|exfalso; apply N1; rewrite <- E; apply in_map; auto|auto].
Qed.

Lemma call_path v (l : nat -> list entry) s (orig : nat -> option Z) og : NoDup (map en_wrapper s) -> (forall k, subseq (l k) s) -> (forall j k, (j <= k)%nat -> subseq (l j) (l k)) ->
  (forall k, vwired (v k) (l k) (orig k)) -> (forall k, orig k = og \/ orig k = None) -> (forall y, In y s -> og <> Some (en_wrapper y)) ->
  forall k x path p, call v s k x path p -> In x (l k) ->
  exists s1 s2 rest, s = s1 ++ x :: s2 /\ path = x :: rest /\ subseq rest s2 /\ (exists k', p = match orig k' with Some a => Ptr a | None => Uninit end).
Proof.
  intros N LS LM W O NO. assert (ND : NoDup s) by (eapply NoDup_map_inv; exact N).
  induction 1 as [k k' x p L E Hp|k k' x y path p L E Hy C IH]; intros Hx.
  - assert (Hx' : In x (l k')) by (eapply subseq_In; [apply (LM k k' L)|exact Hx]). destruct (vwired_at _ _ _ _ (W k') Hx') as (q1 & q2 & El & Ew).
    assert (Hs : In x s) by (eapply subseq_In; [apply (LS k')|exact Hx']). destruct (in_split _ _ Hs) as (s1 & s2 & Es).
    exists s1, s2, []. split; [exact Es|]. split; [reflexivity|]. split; [clear; induction s2; constructor; auto|].
    rewrite Ew in E. injection E as <-. destruct q2 as [|y q2].
    + exists k'. reflexivity.
    + exfalso. apply (Hp y); [|reflexivity]. eapply subseq_In; [apply (LS k')|]. rewrite El. apply in_or_app. right. right. left. auto.
  - assert (Hx' : In x (l k')) by (eapply subseq_In; [apply (LM k k' L)|exact Hx]). destruct (vwired_at _ _ _ _ (W k') Hx') as (q1 & q2 & El & Ew).
    rewrite Ew in E. injection E as E. destruct q2 as [|z q2].
    { exfalso. destruct (O k') as [Ok|Ok]; rewrite Ok in E; [|discriminate]. destruct og as [b|]; [|discriminate]. injection E as ->. apply (NO y Hy). reflexivity. }
    injection E as E. assert (Hz : In z (l k')) by (rewrite El; apply in_or_app; right; right; left; auto).
    assert (z = y) by (eapply wrapper_inj; [exact N|eapply subseq_In; [apply (LS k')|exact Hz]|exact Hy|exact E]). subst z.
    destruct (IH Hz) as (t1 & t2 & rest & Es & -> & Sr & Hp). pose proof (LS k') as Sk. rewrite El in Sk. apply subseq_drop in Sk.
    destruct (subseq_tail _ _ _ Sk) as (s1 & s2 & Es' & S2). exists s1, s2, (y :: rest). split; [exact Es'|]. split; [reflexivity|]. split; [|exact Hp].
    destruct (subseq_tail _ _ _ S2) as (u1 & u2 & -> & S3). rewrite Es' in Es.
    assert (EE : (s1 ++ x :: u1) ++ y :: u2 = t1 ++ y :: t2) by (rewrite <- Es, <- app_assoc; reflexivity).
    destruct (split_unique y _ _ _ _ ltac:(rewrite EE, <- Es, <- Es'; exact ND) EE) as [_ ->]. clear - Sr. induction u1 as [|w u1 IH]; cbn; constructor; auto.
Qed.
