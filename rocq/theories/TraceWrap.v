(** Every moment of gotcha_wrap. *)
From Verif Require Import Base ListFacts HashModel HashProofs SpecHash HashTrace ElfModel ToolModel CoreModel TraceModel SpecCore SpecRun SpecTrace ToolProofs CoreMaps CoreRel CoreLib CoreWrap CoreStep CoreLoop CoreMain CoreSpec CoreHist CoreMicro TraceErase TraceProofs.

Section Moments.
Context (e : env) (ex : lmap -> cstr -> option Z) (rl : lmap -> list (Z * cstr)).
Context (EO : env_ok e) (fl : lfilter) (maps : list lmap).
Notation abind := (abind ins_c ex).
Notation abinds := (abinds ins_c ex).
Notation amain := (amain ins_c ex e).
Notation abinds_user := (abinds_user ins_c ex e).
Notation ainit := (ainit ins_c ex e).
Notation awrap := (awrap ins_c ex e).
Notation srel := (srel e ex rl True).
Notation memf := (memf rl).
Let Hps := eo_ps e EO.

(** stores into GOTs go to slots of accepted libraries and hold a wrapper of the function *)
Definition sl (a : astate) (x w : Z) : Prop :=
  exists m n, accepted fl maps m /\ slot rl m n x /\ In w (map en_wrapper (a_stack a n)).
Notation TR := (trail wle sl).
Definition fr (st : state) : Prop := p_filter (s_p st) = fl /\ p_maps (s_p st) = maps.
Lemma fr_memf a st st' : memf a (s_p st) (s_p st') -> fr st -> fr st'.
Proof. intros (A & B & _) (C & D). split; congruence. Qed.

Lemma srel_links st a ch todo n i x : srel st a ch todo -> In i (ch n) -> entry_of (s_b st) i = Some x -> b_handles (s_b st) (en_handle x) = Some i.
Proof.
  intros S Hi Hx. destruct (entry_ib _ _ _ Hx) as (ib & E & _ & H). rewrite <- H. apply (wr_handles _ _ _ _ (sr_w _ _ _ _ _ _ _ _ S I)). auto.
Qed.
Lemma srel_good st a ch todo : srel st a ch todo -> good a (vis_of st).
Proof.
  intros S n. pose proof (sr_b _ _ _ _ _ _ _ _ S) as B. pose proof (sr_w _ _ _ _ _ _ _ _ S I) as W.
  assert (HW : wired st (a_stack a n) (a_orig a n)) by (eapply links_wired; [apply W|apply (br_stack _ _ _ _ _ B)|apply W]).
  revert HW. generalize (a_stack a n) (a_orig a n). intros s o. induction s as [|x r IH]; cbn [wired vwired]; [auto|]. intros [H1 H2]. split; [|auto].
  unfold gotcha_get_wrappee in H1. unfold vwrappee. cbn [vis_of v_handles v_wrappee]. destruct (b_handles (s_b st) (en_handle x)) as [i|]; [|discriminate].
  unfold deref in H1. destruct (nth_error (b_ib (s_b st)) i); [|discriminate]. cbn in H1. congruence.
Qed.

(** stores into handle variables of bindings not yet installed *)
Lemma handles_tr a : forall ws v, (forall w, In w ws -> exists h x, w = WHandle h x /\ forall n y, In y (a_stack a n) -> en_handle y <> h) -> good a v -> TR a v ws a.
Proof.
  induction ws as [|w r IH]; intros v H G; [apply tr_nil; auto|]. destruct (H w (or_introl eq_refl)) as (h & x & -> & D).
  eapply tr_ev; [exact G|apply wle_refl|discriminate|]. apply IH; [intros; apply H; right; auto|]. eapply good_ext; [|exact G].
  intros n y Hy. unfold vwrappee. cbn [vapply v_handles v_wrappee]. unfold fupd. destruct (Z.eqb_spec (en_handle y) h); [exfalso; eapply D; eauto|reflexivity].
Qed.
(** stores into GOTs *)
Lemma slots_tr a : forall ws v, (forall w, In w ws -> exists x y, w = WSlot x y /\ sl a x y) -> good a v -> TR a v ws a.
Proof.
  induction ws as [|w r IH]; intros v H G; [apply tr_nil; auto|]. destruct (H w (or_introl eq_refl)) as (x & y & -> & D).
  eapply tr_ev; [exact G|apply wle_refl|intros p q Ep; injection Ep as <- <-; exact D|]. apply IH; [intros; apply H; right; auto|]. eapply good_ext; [|exact G]. reflexivity.
Qed.
Lemma slots_in x y : forall evs, In (WSlot x y) (slots evs) -> In (PStore x y) evs.
Proof. induction evs as [|[c|p q] r IH]; cbn; [auto|auto|]. intros [H|H]; [left; congruence|auto]. Qed.
Lemma slots_only w : forall evs, In w (slots evs) -> exists x y, w = WSlot x y.
Proof. induction evs as [|[c|p q] r IH]; cbn; [intros []|auto|]. intros [H|H]; [eauto|auto]. Qed.

Lemma update_all_slots t st a ch todo st' ws : srel st a ch todo -> fr st -> tbl_ok (b_ib (s_b st)) t (Gst a) ->
  update_all_library_gots_t e t st = Ok (st', ws) -> forall w, In w ws -> exists x y, w = WSlot x y /\ sl a x y.
Proof.
  intros S [F1 F2] T E.
  unfold update_all_library_gots_t in E. tl E as st1 B. tb E as u w1 w2 C. apply tret_Ok in E. destruct E as [-> ->]. unfold tell in C. injection C as <- <-. rewrite app_nil_r.
  intros w Hw. destruct (slots_only _ _ Hw) as (x & y & ->). exists x, y. split; [reflexivity|]. apply slots_in in Hw.
  unfold update_all_library_gots in B. rewrite (sr_maps _ _ _ _ _ _ _ _ S) in B.
  destruct (update_gots_base e ex rl _ t _ T (a_maps a) (s_l st) (s_p st) (sr_lib _ _ _ _ _ _ _ _ S) (sr_l _ _ _ _ _ _ _ _ S))
    as (l3 & p3 & EG & _ & _ & _ & _ & _ & U). rewrite EG in B. cbn [bind] in B. injection B as <-. cbn [s_p set_p] in Hw.
  destruct U as (evs & L & U). rewrite L, skipn_log in Hw. destruct (U _ _ Hw) as (pre & m & rest & n & A1 & A2 & A3 & A4). exists m, n. split; [|auto].
  exists pre, rest. rewrite <- F1, <- F2, (sr_maps _ _ _ _ _ _ _ _ S). auto.
Qed.
Lemma update_all_tr t st a ch st' ws : srel st a ch [] \/ (exists todo, srel st a ch todo) -> fr st -> tbl_ok (b_ib (s_b st)) t (Gst a) ->
  update_all_library_gots_t e t st = Ok (st', ws) -> TR a (vis_of st) ws a.
Proof.
  intros S0 F T E. assert (S : exists todo, srel st a ch todo) by (destruct S0; eauto). clear S0. destruct S as [todo S].
  apply slots_tr; [|eapply srel_good; eauto]. eapply update_all_slots; eauto.
Qed.

Lemma abind_wle a t u : ~ In (ub_wrapper u) (map en_wrapper (a_stack a (ub_name u))) -> wle a (fst (abind a t u)).
Proof.
  intros N n. unfold SpecCore.abind. destruct (a_stack a (ub_name u)) as [|h r] eqn:E; cbn [fst a_stack a_orig].
  - destruct (cstr_dec n (ub_name u)) as [->|D]; [|rewrite !cupd_neq by auto; split; [apply subseq_refl|auto]].
    rewrite E. split; [|auto]. rewrite cupd_eq. cbn. constructor 3. constructor.
  - destruct (cstr_dec n (ub_name u)) as [->|D]; [|rewrite !cupd_neq by auto; split; [apply subseq_refl|auto]].
    rewrite E, cupd_eq. split; [|auto]. rewrite ins_c_place by exact N. apply place_subseq.
Qed.

(** *** one binding *)
Lemma wrap_one_tr rec rec' num b st pr st' pr' ws a ch todo n st1 a1 ch1 a' ch' todo' :
  mir_rec rec rec' -> hok (s_b st) -> srel st a ch (b :: todo) -> name_of (s_b st) b = Some n ->
  wrap_main e rec' st n = Ok st1 -> srel st1 a1 ch1 (b :: todo) ->
  (forall w, wrap_main_t e rec st n = Ok (st1, w) -> TR a (vis_of st) w a1) ->
  wle a1 a' -> srel st' a' ch' todo' ->
  wrap_one_t e rec num b (st, pr) = Ok ((st', pr'), ws) -> TR a (vis_of st) ws a'.
Proof.
  intros HR HK S Hn EM S1 HM L S' E. destruct (mir_Ok _ _ _ _ _ _ (wrap_one_mir e rec rec' HR num b st pr HK) E) as [_ V]. cbn [fst] in V.
  unfold wrap_one_t in E. tb E as [st2 r] w1 w2 B1. unfold rewrite_wrapper_orders_t in B1. tl B1 as ib C1. tl B1 as p C2. tb B1 as st3 w3 w4 C3. tb B1 as [bs r'] w5 w6 C4.
  apply tret_Ok in B1. destruct B1 as [B1 ->]. injection B1 as <- <-. rewrite app_nil_r in *.
  assert (En : ub_name (ib_user ib) = n). { unfold name_of in Hn. unfold deref in C1. destruct (nth_error (b_ib (s_b st)) b) as [ib'|]; [|discriminate]. cbn in Hn. congruence. }
  rewrite En in *. destruct (mir_Ok _ _ _ _ _ _ (wrap_main_mir e rec rec' HR st n HK) C3) as [EM' V3]. assert (st3 = st1) by congruence. subst st3.
  rewrite <- app_assoc in *. eapply trail_app; [apply HM; exact C3|exact V3|].
  (* what follows the nested calls *)
  pose proof (sr_b _ _ _ _ _ _ _ _ S1) as R1. pose proof (sr_w _ _ _ _ _ _ _ _ S1 I) as W1.
  destruct (br_todo _ _ _ _ _ R1 b (or_introl eq_refl)) as [Hbi Hbc]. unfold inx in Hbi. destruct (nth_error (b_ib (s_b st1)) b) as [ib1|] eqn:Eb; [|discriminate].
  destruct (place_shape _ _ _ _ _ _ _ _ _ C4 Eb (wr_handles _ _ _ _ W1 _ _ Eb)) as (N5 & L5 & Sh).
  tl E as ib2 D1. tb E as [st4 pr4] w7 w8 D2.
  assert (H7 : noslot w7 /\ (length w7 <= 1)%nat /\ (need_lookup r' = false -> w7 = [])).
  { destruct (need_lookup r').
    - tb D2 as [st5 f] w9 w10 D3. apply prepare_shape in D3. destruct D3 as [P1 P2]. assert (w10 = []).
      { destruct f; [apply tret_Ok in D2; tauto|]. tl D2 as t D4. apply tret_Ok in D2. tauto. }
      subst w10. rewrite app_nil_r. split; [auto|]. split; [auto|discriminate].
    - apply tret_Ok in D2. destruct D2 as [_ ->]. split; [apply noslot_nil|]. split; [cbn; lia|auto]. }
  assert (w8 = []).
  { destruct (need_binding r'); [|apply tret_Ok in E; tauto]. tl E as t D3. tl E as t2 D4. apply tret_Ok in E. tauto. }
  subst w8. rewrite app_nil_r in *. destruct H7 as (N7 & L7 & Z7).
  assert (G' : good a' (vapplys (w5 ++ w7) (vis_of st1))).
  { eapply good_veq; [|eapply srel_good; exact S']. apply veq_sym. eapply veq_trans; [|exact V]. rewrite (vapplys_app w3). apply vapplys_veq. apply veq_sym. exact V3. }
  assert (NS : noslot (w5 ++ w7)) by (intros x y H; apply in_app_or in H; destruct H; [eapply N5|eapply N7]; eauto).
  pose proof (srel_good _ _ _ _ S1) as G1.
  assert (Cs : (length (w5 ++ w7) <= 1)%nat \/ exists v w2, w5 ++ w7 = [WWrappee b v; w2]).
  { destruct (need_lookup r') eqn:En'.
    - rewrite (L5 eq_refl). left. exact L7.
    - rewrite (Z7 eq_refl), app_nil_r. exact Sh. }
  destruct Cs as [Cs|(v & w9 & Cs)]; [apply trail_one; auto|]. rewrite Cs in *.
  assert (G2 : good a1 (vapply (vis_of st1) (WWrappee b v))).
  { eapply good_ext; [|exact G1]. intros m y Hy. destruct (Forall2_In_r _ _ _ _ (br_stack _ _ _ _ _ R1 m) Hy) as (i & Hi & He).
    unfold vwrappee. cbn [vapply vis_of v_handles v_wrappee]. rewrite (srel_links _ _ _ _ _ _ _ S1 Hi He). destruct (Nat.eqb_spec i b) as [->|D]; [|reflexivity].
    exfalso. eapply Hbc; eauto. }
  eapply tr_ev; [exact G1|apply wle_refl|discriminate|]. apply trail_one; [exact G2|exact G'|exact L|cbn; lia|]. intros x y H. apply (NS x y). right. exact H.
Qed.

Definition main_tr (rec : wrap_fun_t) (mm : bool) (n : cstr) : Prop :=
  forall st a ch todo st1 ws, srel st a ch todo -> (mm = true -> a_main a = true) -> hok (s_b st) -> fr st ->
  wrap_main_t e rec st n = Ok (st1, ws) -> TR a (vis_of st) ws (amain a n).
Lemma main_tr_other rec mm n : n <> n_main -> main_tr rec mm n.
Proof.
  intros D st a ch todo st1 ws S _ _ _. unfold wrap_main_t. rewrite strcmp_main, (cstr_eqb_neq _ _ D). cbn [andb]. rewrite amain_other by auto.
  intros E. apply tret_Ok in E. destruct E as [_ ->]. apply tr_nil. eapply srel_good; eauto.
Qed.
Lemma main_tr_done rec n : main_tr rec true n.
Proof.
  intros st a ch todo st1 ws S H _ _. unfold wrap_main_t. rewrite (sr_main _ _ _ _ _ _ _ _ S), (H eq_refl), andb_false_r. rewrite amain_true by auto.
  intros E. apply tret_Ok in E. destruct E as [_ ->]. apply tr_nil. eapply srel_good; eauto.
Qed.

Lemma new_step_inv num old new n b nb : 0 < num -> new_inv old -> new_step e num old new n b nb -> new_inv new.
Proof.
  intros Hn O H. unfold new_step in H. destruct nb; [|subst; auto]. destruct H as (t0 & t1 & A & B & ->). cbn.
  assert (H0 : exists l c, ht_inv strhash libc_strcmp t0 l c).
  { destruct old as [t|]; [subst; exact O|]. destruct (create_spec (D:=nat) (e_ps e) (num * 2) strhash libc_strcmp Hps ltac:(lia)) as (t & Ht & J & _).
    assert (t = t0) by congruence. subst. eauto. }
  destruct H0 as (l & c & J). destruct (addto_spec t0 l c n b J) as (t2 & l2 & c2 & E2 & J2 & _). assert (t2 = t1) by congruence. subst. eauto.
Qed.

(** *** the loop *)
Lemma wrap_loop_tr rec rec' mm tool num : mir_rec rec rec' -> 0 < num -> forall ubs st a ch todo start pr st' pr' ws,
  srel st a ch (seq start (length ubs) ++ todo) ->
  (forall k u, nth_error ubs k = Some u -> entry_of (s_b st) (start + k)%nat = Some (mkE tool (ub_wrapper u) (ub_handle u)) /\
                                           name_of (s_b st) (start + k)%nat = Some (ub_name u)) ->
  fresh_rest e a ubs -> (mm = true -> a_main a = true) -> (forall u, In u ubs -> main_ok e ex rl rec' True mm (ub_name u)) ->
  (forall u, In u ubs -> main_tr rec mm (ub_name u)) -> new_inv (pr_new pr) -> hok (s_b st) -> fr st ->
  wrap_loop_t e rec num (length ubs) start (st, pr) = Ok ((st', pr'), ws) -> TR a (vis_of st) ws (fst (abinds_user a tool ubs)).
Proof.
  intros HR Hnum. induction ubs as [|u us IH]; intros st a ch todo start pr st' pr' ws S Hent Hfr Hmm Hmain Hmtr Hni HK HF E.
  - cbn in E. injection E as _ _ <-. cbn. apply tr_nil. eapply srel_good; eauto.
  - cbn [length seq app] in S. cbn [wrap_loop_t length] in E.
    destruct (Hent 0%nat u eq_refl) as [He Hn]. rewrite Nat.add_0_r in He, Hn.
    set (x := mkE tool (ub_wrapper u) (ub_handle u)) in *. set (n := ub_name u) in *.
    destruct (Hmain u (or_introl eq_refl) st a ch _ S Hmm) as (st1 & ch1 & EM & S1 & B1 & M1). fold n in EM, S1, M1.
    destruct (B1 _ _ _ He Hn) as [He1 Hn1].
    assert (Hf1 : ~ In (en_wrapper x) (map en_wrapper (a_stack (amain a n) n))).
    { intros H. apply in_map_iff in H. destruct H as (y & A1 & A2). apply (fresh_rest_amain e ex a n _ Hfr u y); [left; auto|exact A2|exact A1]. }
    destruct (wrap_one_spec e ex rl rec' True st a ch _ start n x num pr st1 (amain a n) ch1 Hps Hnum S Hn He EM S1 Hn1 He1 (amain_prio ex e a n _) (fun _ => Hf1) Hni)
      as (st2 & ch2 & pr2 & nb & EO1 & S2 & _ & HP & _ & HB & Hto & Hta & _ & _ & Hns & _ & _).
    replace (mkUB n (en_wrapper x) (en_handle x)) with u in * by (destruct u; reflexivity). cbn [en_tool x] in S2.
    tb E as [st2' pr2'] w1 w2 E1. destruct (mir_Ok _ _ _ _ _ _ (wrap_one_mir e rec rec' HR num start st pr HK) E1) as [EO2 V1]. rewrite EO1 in EO2. injection EO2 as <- <-.
    cbn [fst] in V1. set (r1 := abind (amain a n) tool u) in *.
    assert (B12 : bext (s_b st) (s_b st2)) by (eapply bext_trans; [exact B1|apply bext_eq; auto]).
    assert (ER : fst (abinds_user a tool (u :: us)) = fst (abinds_user (fst r1) tool us)).
    { cbn [SpecCore.abinds_user]. change (abind (amain a (ub_name u)) tool u) with r1. destruct r1 as [a1 f1]. cbn [fst snd]. destruct (abinds_user a1 tool us). reflexivity. }
    rewrite ER. eapply trail_app; [|exact V1|].
    + eapply wrap_one_tr; [exact HR|exact HK|exact S|exact Hn|exact EM|exact S1| | |exact S2|exact E1].
      * intros w Ew. eapply (Hmtr u (or_introl eq_refl)); eauto.
      * apply abind_wle. exact Hf1.
    + eapply (IH st2 (fst r1) ch2 todo (Datatypes.S start) pr2); try exact E; auto.
      * intros k v Hk. destruct (Hent (Datatypes.S k) v Hk) as [H1 H2]. rewrite Nat.add_succ_r in H1, H2. apply (B12 _ _ _ H1 H2).
      * apply fresh_rest_step. exact Hfr.
      * intros Hm. unfold r1. rewrite abind_main. apply amain_main. auto.
      * intros v Hv. apply Hmain. right. auto.
      * intros v Hv. apply Hmtr. right. auto.
      * eapply new_step_inv; eauto.
      * eapply wrap_one_hok; [exact HR|exact EO1|exact HK].
      * unfold fr. rewrite HP. eapply fr_memf; eauto.
Qed.

(** *** gotcha_wrap after gotcha_init *)
Lemma handle_stores_in w : forall ubs i, In w (handle_stores ubs i) -> exists u j, In u ubs /\ w = WHandle (ub_handle u) (Some j).
Proof. induction ubs as [|u r IH]; intros i H; [destruct H|]. destruct H as [<-|H]; [exists u, i; split; [left|]; auto|]. destruct (IH _ H) as (v & j & A & B). exists v, j. split; [right|]; auto. Qed.

Lemma wrap_tool_tr rec rec' mm st a ch todo ubs tool st' c ws : mir_rec rec rec' ->
  srel st a ch todo -> fresh_call e st a ubs -> (mm = true -> a_main a = true) -> (forall u, In u ubs -> main_ok e ex rl rec' True mm (ub_name u)) ->
  (forall u, In u ubs -> main_tr rec mm (ub_name u)) -> hok (s_b st) -> fr st ->
  wrap_tool_t e rec st ubs tool = Ok ((st', c), ws) -> TR a (vis_of st) ws (fst (abinds_user (ause a (tool_of tool)) (tool_of tool) ubs)).
Proof.
  intros HR S HFc Hmm Hmain Hmtr HK HF E. unfold wrap_tool_t in E. fold (tool_of tool) in E. set (t := tool_of tool) in *.
  destruct (srel_use_gen e ex rl Hps True st a ch todo t ubs S) as (ts & ti & bs & bt & E1 & E2 & E3 & E4 & S1 & B1 & Hent).
  { intros f. destruct HFc as (A & B & C & _). auto. }
  tb E as u0 w1 w2 C1. unfold tell in C1. injection C1 as _ <-. cbv zeta in E. tl E as [ts' ti'] C2. cbn [s_b set_b b_tools set_handles b_handles] in C2. rewrite E1 in C2. injection C2 as <- <-.
  tb E as u1 w1 w3 C3. unfold tell in C3. injection C3 as _ <-. cbn [s_b set_b set_l s_l b_ib set_btools set_handles] in E |- *. tl E as [bs' tbl] C4. cbn [s_b set_b set_l s_l] in C4. cbn [set_b s_b s_init s_main s_l s_p set_l] in C4.
  rewrite E2 in C4. injection C4 as <- <-. tl E as bt' C5. rewrite (deref_Ok _ _ _ E3) in C5. injection C5 as <-. rewrite E4 in E.
  assert (Hd : forall h, In h (map ub_handle ubs) -> forall n y, In y (a_stack a n) -> en_handle y <> h).
  { intros h Hh n y Hy. apply in_map_iff in Hh. destruct Hh as (u & <- & Hu). destruct (stack_binding e ex rl _ _ _ _ _ _ _ S Hy) as (i & ib & _ & A & B).
    destruct HFc as (_ & F2 & _). pose proof (F2 i ib u A Hu) as F. rewrite B in F. exact F. }
  pose proof (srel_good _ _ _ _ S) as G.
  set (v1 := vapplys (null_stores ubs) (vis_of st)) in *.
  assert (T1 : TR a (vis_of st) (null_stores ubs) a).
  { apply handles_tr; [|exact G]. intros w Hw. apply in_map_iff in Hw. destruct Hw as (u & <- & Hu). exists (ub_handle u), None. split; [auto|]. apply Hd. apply in_map. auto. }
  assert (G1 : good a v1).
  { unfold v1. rewrite null_applied. eapply good_ext; [|exact G]. intros n y Hy. unfold vwrappee. cbn [v_handles v_wrappee vis_of]. rewrite null_handles_other; [reflexivity|].
    intros Hh. eapply Hd; eauto. }
  eapply trail_app; [exact T1|apply veq_refl|]. fold v1.
  set (st0 := set_b (set_btools ts (set_handles (null_handles ubs (b_handles (s_b st))) (s_b st))) (set_l (mkLS (l_table (s_l st)) (l_heap (s_l st)) (l_list (s_l st)) (u32 (l_gen (s_l st) + 1))) st)) in *.
  assert (V1 : veq v1 (visb (set_btools ts (set_handles (null_handles ubs (b_handles (s_b st))) (s_b st))) (p_mem (s_p st)))).
  { unfold v1. rewrite null_applied. apply veq_refl. }
  destruct (add_applied _ _ _ _ _ _ (p_mem (s_p st)) E2) as [V2 K2].
  set (g := u32 (l_gen (s_l st) + 1)) in *. specialize (S1 g).
  set (stl := set_b bs (set_l (mkLS (l_table (s_l st)) (l_heap (s_l st)) (l_list (s_l st)) g) st)) in *.
  assert (Hstl : hok (s_b stl)) by (apply K2; unfold hok; apply null_hok; exact HK).
  assert (V3 : veq (vapplys (handle_stores ubs (length (b_ib (s_b st)))) v1) (vis_of stl)).
  { eapply veq_trans; [apply vapplys_veq; exact V1|exact V2]. }
  eapply trail_app; [|exact V3|].
  { apply handles_tr; [|exact G1]. intros w Hw. apply handle_stores_in in Hw. destruct Hw as (u & j & Hu & ->). exists (ub_handle u), (Some j). split; [auto|]. apply Hd. apply in_map. auto. }
  tb E as [st2 pr2] w1 w2 C6.
  assert (Cl : exists st2' pr2' ch2, wrap_loop e rec' (Z.of_nat (length ubs)) (length ubs) (length (b_ib (s_b st))) (stl, mkPr 0 None) = Ok (st2', pr2') /\
     srel st2' (fst (abinds_user (ause a t) t ubs)) ch2 todo /\ fr st2' /\ new_ok st2' (fst (abinds_user (ause a t) t ubs)) pr2' /\
     TR (ause a t) (vis_of stl) w1 (fst (abinds_user (ause a t) t ubs))).
  { destruct ubs as [|u2 us].
    - cbn [length wrap_loop]. exists stl, (mkPr 0 None), ch. split; [reflexivity|]. split; [exact S1|]. split; [exact HF|]. split; [exact I|].
      cbn in C6. injection C6 as _ _ <-. cbn. apply tr_nil. eapply srel_good; eauto.
    - set (ubs := u2 :: us) in *. assert (HFR : fresh_rest e (ause a t) ubs).
      { destruct HFc as (A & B & C & D & F). split; [auto|]. split; [exact F|]. cbn [ause a_main]. destruct C as [C|C]; [auto|right]. intros u Hu. apply C. auto. }
      destruct (wrap_loop_spec e ex rl Hps rec' True mm t (Z.of_nat (length ubs)) ltac:(cbn [length ubs]; lia) ubs _ _ _ _ (length (b_ib (s_b st))) (mkPr 0 None) S1)
        as (st2' & ch2 & pr2' & EL & S2 & _ & _ & _ & M2 & N2); [exact Hent|intros _; exact HFR|exact Hmm|exact Hmain|exact I|cbn; lia|].
      exists st2', pr2', ch2. split; [exact EL|]. split; [exact S2|]. split; [eapply fr_memf; [exact M2|exact HF]|]. split; [exact N2|].
      eapply wrap_loop_tr; try exact C6; eauto; [cbn [length ubs]; lia|exact I]. }
  destruct Cl as (st2' & pr2' & ch2 & EL & S2 & F2 & N2 & TL). destruct (mir_Ok _ _ _ _ _ _ (wrap_loop_mir e rec rec' HR _ _ _ _ _ Hstl) C6) as [EL' VL].
  assert (H : (st2', pr2') = (st2, pr2)) by congruence. injection H as -> ->. cbn [fst] in VL.
  eapply tr_mv; [eapply good_same; [| |eapply srel_good; exact S1]; reflexivity|apply (wle_same a (ause a t)); reflexivity|].
  eapply trail_app; [exact TL|exact VL|]. tb E as st3 w3 w4 C7. apply tret_Ok in E. destruct E as [_ ->]. rewrite app_nil_r.
  unfold new_ok in N2. destruct (pr_new pr2) as [nt|].
  - eapply update_all_tr; [right; exists todo; exact S2|exact F2|exact N2|exact C7].
  - apply tret_Ok in C7. destruct C7 as [_ ->]. apply tr_nil. eapply srel_good; eauto.
Qed.
End Moments.
