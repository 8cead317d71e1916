(** Histories: every run of the code is a run of the abstract machine. *)
From Verif Require Import Base ListFacts HashModel HashProofs SpecHash HashTrace ElfModel ToolModel CoreModel SpecCore SpecRun ToolProofs CoreMaps CoreRel CoreLib CoreStep CoreWrap CoreLoop.
From Coq Require Import Permutation Sorted.

Lemma entry_set_tools bs ts' : 
  (forall j x, nth_error (ts_heap (b_tools bs)) j = Some x -> exists x', nth_error (ts_heap ts') j = Some x' /\ t_name x' = t_name x) ->
  forall i x, entry_of bs i = Some x -> entry_of (set_btools ts' bs) i = Some x.
Proof.
  intros H i x E. unfold entry_of in *. cbn [b_ib b_tables b_tools set_btools]. destruct (nth_error (b_ib bs) i) as [ib|]; [|discriminate].
  destruct (nth_error (b_tables bs) (ib_table ib)) as [bt|]; [|discriminate].
  destruct (nth_error (ts_heap (b_tools bs)) (bt_tool bt)) as [t|] eqn:E3; [|discriminate]. destruct (H _ _ E3) as (t' & -> & ->). auto.
Qed.

Lemma brel_set_tools bs tools stack ch todo ts' l' : brel bs tools stack ch todo -> tools_ok ts' l' ->
  (forall j x, nth_error (ts_heap (b_tools bs)) j = Some x -> exists x', nth_error (ts_heap ts') j = Some x' /\ t_name x' = t_name x) ->
  brel (set_btools ts' bs) (tool_prios (ts_heap ts')) stack ch todo.
Proof.
  intros [R1 R2 R3 R4 R5 R6 R7 R8 R9 R10 R11] TO H.
  pose proof (entry_set_tools bs ts' H) as Hent.
  constructor; auto.
  - exists l'. auto.
  - intros i Hi. destruct (entry_of bs i) as [x|] eqn:E; [rewrite (Hent _ _ E); discriminate|]. exfalso. eapply R3; eauto.
  - intros n. eapply Forall2_impl_In; [|apply R4]. intros i y _. apply Hent.
Qed.

Section Main.
Context (e : env) (ex : lmap -> cstr -> option Z) (rl : lmap -> list (Z * cstr)).
Context (EO : env_ok e).
Notation abind := (abind ins_c ex).
Notation abinds := (abinds ins_c ex).
Notation amain := (amain ins_c ex e).
Notation abinds_user := (abinds_user ins_c ex e).
Notation ainit := (ainit ins_c ex e).
Notation awrap := (awrap ins_c ex e).
Notation srel := (srel e ex rl).
Notation memf := (memf rl).
Let Hps := eo_ps e EO.

Lemma stack_binding F st a ch todo n x : srel F st a ch todo -> In x (a_stack a n) ->
  exists i ib, In i (ch n) /\ nth_error (b_ib (s_b st)) i = Some ib /\ ib_user ib = mkUB n (en_wrapper x) (en_handle x).
Proof.
  intros S Hx. pose proof (sr_b _ _ _ _ _ _ _ _ S) as R. destruct (Forall2_In_r _ _ _ _ (br_stack _ _ _ _ _ R n) Hx) as (i & Hi & He).
  destruct (entry_binding _ _ _ _ He (br_name _ _ _ _ _ R _ _ Hi)) as (ib & A & B). eauto.
Qed.

Lemma chain_entry F st a ch todo n i ib : srel F st a ch todo -> In i (ch n) -> nth_error (b_ib (s_b st)) i = Some ib ->
  exists x, In x (a_stack a n) /\ ib_user ib = mkUB n (en_wrapper x) (en_handle x).
Proof.
  intros S Hi Hib. pose proof (sr_b _ _ _ _ _ _ _ _ S) as R. destruct (Forall2_In_l _ _ _ _ (br_stack _ _ _ _ _ R n) Hi) as (x & Hx & He).
  destruct (entry_binding _ _ _ _ He (br_name _ _ _ _ _ R _ _ Hi)) as (ib' & A & B). exists x. split; [auto|]. congruence.
Qed.

Lemma names_neq : n_main <> n_libc_start_main /\ n_dlopen <> n_dlsym /\ n_dlopen <> n_main /\ n_dlsym <> n_main.
Proof. repeat split; discriminate. Qed.

Lemma handles_neq : e_h_libc e <> e_h_main e.
Proof. pose proof (eo_handles e EO) as H. unfold internal_handles in H. inversion H; subst. inversion H3; subst. inversion H5; subst. cbn in H6. intuition. Qed.

Lemma wrap_body_done rec F st a ch todo ubs tool : srel F st a ch todo -> a_main a = true -> (F -> fresh_call e st a ubs) ->
  let r := abinds (ause a (tool_of tool)) (tool_of tool) ubs in
  exists st' ch' c, wrap_body e rec st ubs tool = Ok (st', c) /\
    srel F st' (fst r) ch' todo /\ bext (s_b st) (s_b st') /\ memf (fst r) (s_p st) (s_p st').
Proof.
  intros S Hm HF r. unfold wrap_body, gotcha_init. rewrite (sr_init _ _ _ _ _ _ _ _ S). cbn [bind].
  destruct (wrap_tool_spec e ex rl Hps rec F true st a ch todo ubs tool S HF (fun _ => Hm)) as (st' & ch' & E & S' & B & M).
  { intros u _. apply main_ok_done. }
  rewrite (abinds_user_eq ex e (tool_of tool) ubs (ause a (tool_of tool)) (or_intror Hm)) in *. fold r in E, S', M.
  exists st', ch'. eauto 6.
Qed.

Lemma main_ok_full rec F mm n : main_ok e ex rl (wrap_body e rec) F mm n.
Proof.
  intros st a ch todo S _. destruct (cstr_dec n n_main) as [->|D]; [|exact (main_ok_other e ex rl _ F false n D st a ch todo S ltac:(discriminate))].
  destruct (a_main a) eqn:Hm; [exact (main_ok_done e ex rl _ F n_main st a ch todo S (fun _ => Hm))|].
  unfold wrap_main. rewrite strcmp_main, cstr_eqb_refl, (sr_main _ _ _ _ _ _ _ _ S), Hm. cbn [andb negb].
  set (st0 := mkSt (s_init st) true (s_b st) (s_l st) (s_p st)).
  set (a0 := mkA (a_init a) true (a_tools a) (a_stack a) (a_orig a) (a_maps a)).
  assert (S0 : srel F st0 a0 ch todo).
  { constructor; cbn; try apply S; auto. intros _. discriminate. }
  assert (Hold : F -> forall m x, In x (a_stack a m) -> ~ In (en_handle x) [e_h_libc e; e_h_main e] /\ ~ In (en_wrapper x) [e_w_libc e; e_w_main e]).
  { intros f m x Hx. destruct (stack_binding _ _ _ _ _ _ _ S Hx) as (i & ib & _ & A & B). pose proof (sr_int _ _ _ _ _ _ _ _ S f Hm _ _ A) as H. rewrite B in H. exact H. }
  destruct (wrap_body_done rec F st0 a0 ch todo (libc_binds e) (Some n_gotcha) S0 eq_refl) as (st1 & ch1 & c1 & E1 & S1 & B1 & M1).
  { intros f. unfold fresh_call, libc_binds. cbn [map ub_handle ub_name ub_wrapper]. repeat (split; [solve [repeat constructor; cbn; tauto]|]).
    split; [|split; [left; reflexivity|split; [repeat constructor; cbn; tauto|]]].
    - intros i ib u Hi [<-|[]]. cbn. pose proof (sr_int _ _ _ _ _ _ _ _ S f Hm _ _ Hi) as [H _]. cbn in H. intuition.
    - intros u x [<-|[]] Hx. cbn in *. pose proof (Hold f _ _ Hx) as [_ H]. cbn in H. intuition. }
  rewrite E1. cbn [bind]. cbn [tool_of] in S1, M1. set (a1 := fst (abinds (ause a0 n_gotcha) n_gotcha (libc_binds e))) in *.
  assert (Hm1 : a_main a1 = true) by (unfold a1; destruct (abinds_frame ex n_gotcha (libc_binds e) (ause a0 n_gotcha)) as (-> & _); reflexivity).
  assert (Hst1 : forall m x, In x (a_stack a1 m) -> In x (a_stack a m) \/ (m = n_libc_start_main /\ x = mkE n_gotcha (e_w_libc e) (e_h_libc e))).
  { intros m x Hx. apply abinds_new in Hx. cbn [ause a_stack a0] in Hx. destruct Hx as [Hx|(u & [<-|[]] & A & B)]; auto. }
  destruct (wrap_body_done rec F st1 a1 ch1 todo (main_binds e) (Some n_gotcha) S1 Hm1) as (st2 & ch2 & c2 & E2 & S2 & B2 & M2).
  { intros f. unfold fresh_call, main_binds. cbn [map ub_handle ub_name ub_wrapper]. split; [repeat constructor; cbn; tauto|].
    split; [|split; [left; auto|split; [repeat constructor; cbn; tauto|]]].
    - intros i ib u Hi [<-|[]]. cbn [ub_handle].
      destruct (wr_cover _ _ _ _ (sr_w _ _ _ _ _ _ _ _ S1 f) i) as [Ht|[m Hc]]; [eapply nth_error_Some_lt; eauto| |].
      + (* an older binding still to be placed *)
        destruct (br_todo _ _ _ _ _ (sr_b _ _ _ _ _ _ _ _ S) i Ht) as [Hx _]. unfold inx in Hx.
        destruct (nth_error (b_ib (s_b st)) i) as [ib0|] eqn:E0; [|discriminate].
        destruct (bext_user (s_b st) (s_b st1) _ _ _ _ i ib0 (sr_b _ _ _ _ _ _ _ _ S) B1 E0) as (ib' & A & B).
        assert (ib' = ib) by congruence. subst ib'. rewrite B. pose proof (sr_int _ _ _ _ _ _ _ _ S f Hm _ _ E0) as [H _]. cbn in H. intuition.
      + destruct (chain_entry _ _ _ _ _ _ _ _ S1 Hc Hi) as (x & Hx & ->). cbn. apply Hst1 in Hx. destruct Hx as [Hx|[_ ->]].
        * pose proof (Hold f _ _ Hx) as [H _]. cbn in H. intuition.
        * cbn. apply handles_neq.
    - intros u x [<-|[]] Hx. cbn in *. apply Hst1 in Hx. destruct Hx as [Hx|[H _]]; [|exfalso; revert H; apply names_neq].
      pose proof (Hold f _ _ Hx) as [_ H]. cbn in H. intuition. }
  rewrite E2. cbn [bind tool_of] in *. exists st2, ch2.
  assert (Ea : amain a n_main = fst (abinds (ause a1 n_gotcha) n_gotcha (main_binds e))).
  { unfold SpecCore.amain. rewrite cstr_eqb_refl, Hm. reflexivity. }
  rewrite Ea. split; [reflexivity|]. split; [auto|]. split; [eapply bext_trans; eauto|].
  eapply memf_trans; [exact M1|exact M2|]. intros m x Hx. apply abinds_sub. auto.
Qed.

(** *** before the first API call *)
Record prel (st : state) (a : astate) : Prop := {
  pr_i : s_init st = false; pr_m : s_main st = false;
  pr_b : s_b st = mkBS (mkTS [] None) [] None [] (fun _ => None) zero_table zero_table;
  pr_l : s_l st = mkLS zero_table [] None 0;
  pr_maps : p_maps (s_p st) = a_maps a;
  pr_lib : forall m, In m (a_maps a) -> lib_ok e ex rl m;
  pr_ai : a_init a = false; pr_am : a_main a = false; pr_at : a_tools a = [];
  pr_as : forall n, a_stack a n = []; pr_ao : forall n, a_orig a n = None }.

Lemma gotcha_init_spec rec F st a : prel st a ->
  exists st' ch, gotcha_init e (wrap_body e rec) st = Ok st' /\ srel F st' (ainit a) ch [] /\ memf (ainit a) (s_p st) (s_p st') /\ bext (s_b st) (s_b st').
Proof.
  intros P. unfold gotcha_init. rewrite (pr_i _ _ P). unfold setup_hash_tables. cbn [s_l s_b s_init s_main s_p].
  destruct (create_spec (K:=lkey) (D:=nat) (e_ps e) 128 link_map_hash link_map_cmp Hps ltac:(lia)) as (lt & Elt & Ilt & _). rewrite Elt. cbn [bind].
  destruct (smap_create (e_ps e) 4096 Hps ltac:(lia)) as (ft & Eft & Hft). rewrite Eft. cbn [bind].
  destruct (smap_create (e_ps e) 128 Hps ltac:(lia)) as (nt & Ent & Hnt). rewrite Ent. cbn [bind].
  match goal with |- context[wrap_body e rec ?s _ _] => set (st0 := s) end.
  set (a0 := mkA true (a_main a) (a_tools a) (a_stack a) (a_orig a) (a_maps a)).
  assert (S0 : srel F st0 a0 (fun _ => []) []).
  { constructor; cbn; [reflexivity|reflexivity|rewrite (pr_m _ _ P), (pr_am _ _ P); reflexivity|apply (pr_maps _ _ P)|apply (pr_lib _ _ P)| | | | | |].
    - rewrite (pr_b _ _ P). cbn. constructor; cbn.
      + exists []. constructor; cbn; try constructor. intros t [].
      + rewrite (pr_at _ _ P). reflexivity.
      + intros i Hi. lia.
      + intros n. rewrite (pr_as _ _ P). constructor.
      + reflexivity.
      + constructor.
      + intros n i [].
      + intros i [].
      + constructor.
      + intros i ib Hi. destruct i; discriminate.
      + exact Hft.
    - exists (fun _ => None). split; [auto|]. split; [discriminate|]. intros n. rewrite (pr_as _ _ P). tauto.
    - intros n _. apply (pr_ao _ _ P).
    - rewrite (pr_l _ _ P). exists [], []. split; [exact Ilt|]. intros k i [].
    - intros f. rewrite (pr_b _ _ P). cbn. constructor; cbn.
      + intros i ib Hi. destruct i; discriminate.
      + auto.
      + intros i [].
      + intros i Hi. lia.
    - intros f _ i ib Hi. rewrite (pr_b _ _ P) in Hi. destruct i; discriminate. }
  assert (EW : wrap_body e rec st0 (dl_binds e) (Some n_gotcha) = wrap_tool e rec st0 (dl_binds e) (Some n_gotcha)) by reflexivity.
  pose proof (eo_handles e EO) as HH. unfold internal_handles in HH. pose proof (eo_wrappers e EO) as HW. unfold internal_wrappers in HW.
  rewrite !NoDup_cons_iff in HH, HW. cbn [In] in HH, HW.
  destruct (wrap_tool_spec e ex rl Hps rec F false st0 a0 (fun _ => []) [] (dl_binds e) (Some n_gotcha) S0) as (st' & ch' & E & S' & B & M).
  { intros f. unfold fresh_call, dl_binds. cbn [map ub_handle ub_wrapper ub_name]. split; [|split; [|split; [|split]]].
    - rewrite !NoDup_cons_iff. cbn. intuition.
    - intros i ib u Hi. cbn in Hi. rewrite (pr_b _ _ P) in Hi. destruct i; discriminate.
    - right. intros u [<-|[<-|[]]]; cbn; intuition.
    - constructor; [|repeat constructor; cbn; tauto]. cbn. intros [H|[]]. injection H as H _. revert H. cbn. intros. discriminate.
    - intros u x _. cbn. rewrite (pr_as _ _ P). intros []. }
  { discriminate. }
  { intros u [<-|[<-|[]]]; apply main_ok_other; cbn; apply names_neq. }
  assert (Ea : abinds_user (ause a0 n_gotcha) n_gotcha (dl_binds e) = abinds (ause a0 n_gotcha) n_gotcha (dl_binds e)).
  { apply abinds_user_eq. left. intros u [<-|[<-|[]]]; cbn; apply names_neq. }
  cbn [tool_of] in *. rewrite Ea in *. rewrite EW, E. cbn [bind].
  exists st', ch'. unfold SpecCore.ainit. rewrite (pr_ai _ _ P). fold a0. split; [reflexivity|]. split; [auto|]. split; [exact M|].
  intros i x n Hi. unfold entry_of in Hi. rewrite (pr_b _ _ P) in Hi. destruct i; discriminate.
Qed.

Definition rel (F : Prop) (st : state) (a : astate) : Prop := prel st a \/ exists ch, srel F st a ch [].

Lemma init_any rec F st a : rel F st a ->
  exists st' ch, gotcha_init e (wrap_body e rec) st = Ok st' /\ srel F st' (ainit a) ch [] /\ memf (ainit a) (s_p st) (s_p st') /\ bext (s_b st) (s_b st').
Proof.
  intros [P|[ch S]]; [apply gotcha_init_spec; auto|]. exists st, ch. unfold gotcha_init. rewrite (sr_init _ _ _ _ _ _ _ _ S).
  unfold SpecCore.ainit. rewrite (sr_ainit _ _ _ _ _ _ _ _ S). split; [reflexivity|]. split; [auto|]. split; [apply memf_refl|apply bext_refl].
Qed.

Lemma ainit_new a m x : In x (a_stack (ainit a) m) -> In x (a_stack a m) \/ (In (en_wrapper x) (internal_wrappers e) /\ In (en_handle x) (internal_handles e)).
Proof.
  unfold SpecCore.ainit. destruct (a_init a); [auto|]. intros H. apply abinds_new in H. cbn [ause a_stack] in H.
  destruct H as [H|(u & [<-|[<-|[]]] & A & ->)]; [auto|right|right]; cbn; auto.
Qed.
Lemma ainit_sub a : sub_stack a (ainit a).
Proof. intros m x H. unfold SpecCore.ainit. destruct (a_init a); [auto|]. apply abinds_sub. auto. Qed.

Lemma wrap_spec F st a ubs tool : rel F st a -> (F -> fresh_bindings e a ubs) ->
  let r := awrap a ubs tool in
  exists st' ch', gotcha_wrap e st ubs tool = Ok (st', if snd r then GOTCHA_FUNCTION_NOT_FOUND else GOTCHA_SUCCESS) /\
    srel F st' (fst r) ch' [] /\ memf (fst r) (s_p st) (s_p st') /\ bext (s_b st) (s_b st').
Proof.
  intros R HF r. unfold gotcha_wrap. cbn [wrap_n]. unfold wrap_body at 1.
  destruct (init_any (wrap_n e 1) F st a R) as (st1 & ch1 & E1 & S1 & M1 & B1). cbn [wrap_n] in E1. rewrite E1. cbn [bind].
  destruct (wrap_tool_spec e ex rl Hps (wrap_body e (wrap_n e 1)) F false st1 (ainit a) ch1 [] ubs tool S1) as (st2 & ch2 & E2 & S2 & B2 & M2).
  { intros f. destruct (HF f) as [H1 H2 H3 H4 H5]. split; [auto|]. split; [|split; [|split]]; auto.
    - intros i ib u Hi Hu. destruct (wr_cover _ _ _ _ (sr_w _ _ _ _ _ _ _ _ S1 f) i) as [[]|[m Hc]]; [eapply nth_error_Some_lt; eauto|].
      destruct (chain_entry _ _ _ _ _ _ _ _ S1 Hc Hi) as (x & Hx & ->). cbn. apply ainit_new in Hx. destruct Hx as [Hx|[_ Hx]]; [eapply H3; eauto|].
      intros Eh. rewrite Eh in Hx. apply (proj1 (H5 u Hu)). auto.
    - right. intros u Hu. destruct (H5 u Hu) as [A B]. unfold internal_handles, internal_wrappers in *. cbn in *. tauto.
    - intros u x Hu Hx. apply ainit_new in Hx. destruct Hx as [Hx|[Hx _]]; [eauto|]. intros Eh. rewrite Eh in Hx. apply (proj2 (H5 u Hu)). auto. }
  { discriminate. }
  { intros u _. apply main_ok_full. }
  cbn [wrap_n] in E2. rewrite E2. exists st2, ch2. split; [reflexivity|]. split; [auto|]. split; [|eapply bext_trans; eauto].
  eapply memf_trans; [exact M1|exact M2|]. intros m x Hx. apply abinds_user_sub. auto.
Qed.

(** *** dlopen *)
Definition with_orig (a : astate) (o : cstr -> option Z) : astate := mkA (a_init a) (a_main a) (a_tools a) (a_stack a) o (a_maps a).

Lemma srel_orig_ext F st a o1 o2 ch todo : (forall n, o1 n = o2 n) -> srel F st (with_orig a o1) ch todo -> srel F st (with_orig a o2) ch todo.
Proof.
  intros E S. constructor; try apply S.
  - destruct (sr_nf _ _ _ _ _ _ _ _ S) as (g & A & B & C). exists g. split; [auto|]. split; [auto|]. intros n. rewrite C. cbn. rewrite E. tauto.
  - intros n H. cbn. rewrite <- E. apply (sr_orig _ _ _ _ _ _ _ _ S). auto.
  - intros f. eapply wrel_orig_ext; [|apply S; auto]. cbn. auto.
Qed.

Lemma innermost_spec ibs : forall l d fuel, lseg (inx ibs) (Some d) (d :: l) -> (length l < fuel)%nat ->
  exists l' b, d :: l = l' ++ [b] /\ innermost fuel ibs d = Ok b.
Proof.
  induction l as [|j r IH]; intros d fuel H Hf; destruct fuel as [|f]; try (cbn in Hf; lia).
  - cbn in H. destruct H as (_ & q & H1 & ->). unfold inx in H1. destruct (nth_error ibs d) as [ib|] eqn:E; [|discriminate].
    exists [], d. split; [reflexivity|]. cbn [innermost]. rewrite (deref_Ok _ _ _ E). cbn [bind]. cbn in H1. injection H1 as ->. reflexivity.
  - pose proof H as H0. cbn in H. destruct H as (_ & q & H1 & -> & H2). unfold inx in H1. destruct (nth_error ibs d) as [ib|] eqn:E; [|discriminate].
    destruct (IH j f) as (l' & b & A & B); [cbn; auto|cbn in Hf; lia|]. exists (d :: l'), b. split; [rewrite A; reflexivity|].
    cbn [innermost]. rewrite (deref_Ok _ _ _ E). cbn [bind]. cbn in H1. injection H1 as ->. auto.
Qed.

Lemma chain_fuel F st a ch todo n : srel F st a ch todo -> (length (ch n) <= length (b_ib (s_b st)))%nat.
Proof.
  intros S. pose proof (sr_b _ _ _ _ _ _ _ _ S) as R.
  rewrite <- (seq_length (length (b_ib (s_b st))) 0). apply NoDup_incl_length; [apply (br_nodup _ _ _ _ _ R)|].
  intros i Hi. apply in_seq. pose proof (br_name _ _ _ _ _ R _ _ Hi) as H. unfold name_of in H. destruct (nth_error (b_ib (s_b st)) i) eqn:E; [|discriminate].
  apply nth_error_Some_lt in E. lia.
Qed.

Lemma per_binding_spec F st a o ch {todo} k d : srel F st (with_orig a o) ch todo -> In d (ch k) -> o k = None ->
  let fe := first_export ex (a_maps a) k in
  exists st', per_binding e (Some k) (Some d) st = Ok (st', 0) /\ srel F st' (with_orig a (cupd o k fe)) ch todo /\ s_p st' = s_p st /\
    tracks (p_maps (s_p st)) (s_l st) (s_l st') /\ map buser (b_ib (s_b st')) = map buser (b_ib (s_b st)) /\
    b_tools (s_b st') = b_tools (s_b st) /\ b_tables (s_b st') = b_tables (s_b st) /\
    ((fe = None /\ b_nf (s_b st') = b_nf (s_b st)) \/ (removefrom_hashtable (b_nf (s_b st)) k = Ok (b_nf (s_b st'), true))).
Proof.
  intros S Hd Ho fe. pose proof (sr_b _ _ _ _ _ _ _ _ S) as R. unfold per_binding.
  destruct (in_split _ _ Hd) as (l1 & l2 & Ec).
  pose proof (br_chain _ _ _ _ _ R k) as HL. rewrite Ec in HL at 2. apply lseg_app in HL. destruct HL as (m & _ & HL).
  assert (m = Some d) by (cbn in HL; tauto). subst m.
  destruct (innermost_spec (b_ib (s_b st)) l2 d (Datatypes.S (length (b_ib (s_b st)))) HL) as (l' & b & A & B).
  { pose proof (chain_fuel _ _ _ _ _ k S) as H. rewrite Ec, app_length in H. cbn in H. lia. }
  rewrite B. cbn [bind].
  assert (Ec' : ch k = (l1 ++ l') ++ [b]) by (rewrite Ec, A, app_assoc; reflexivity).
  destruct (prepare_symbol_spec e ex rl st _ _ _ _ k (l1 ++ l') b R Ec' (sr_l _ _ _ _ _ _ _ _ S)) as (bs' & ls & E & T & R' & N1 & N2 & N3 & N4 & N5 & N6 & N7 & W).
  { rewrite (sr_maps _ _ _ _ _ _ _ _ S). apply (sr_lib _ _ _ _ _ _ _ _ S). }
  rewrite E. cbn [bind]. rewrite (sr_maps _ _ _ _ _ _ _ _ S) in *. cbn [with_orig a_maps] in *. fold fe in E, W |- *.
  destruct (sr_nf _ _ _ _ _ _ _ _ S) as (g & G1 & G2 & G3). cbn [with_orig a_stack a_orig] in G3.
  assert (Hst : a_stack a k <> []).
  { intros H. apply (ch_nil e ex rl F st _ ch todo k S) in H. rewrite H in Hd. destruct Hd. }
  assert (HU : F -> a_main a = false -> forall i ib, nth_error (b_ib bs') i = Some ib ->
    ~ In (ub_handle (ib_user ib)) [e_h_libc e; e_h_main e] /\ ~ In (ub_wrapper (ib_user ib)) [e_w_libc e; e_w_main e]).
  { intros f Hm i ibx Hi. destruct (map_nth_eq buser _ _ i ibx (eq_sym N7) Hi) as (ib' & H' & E'). unfold buser in E'.
    pose proof (sr_int _ _ _ _ _ _ _ _ S f Hm i ib' H'). replace (ib_user ibx) with (ib_user ib') by congruence. auto. }
  assert (Hso : forall n, a_stack a n = [] -> cupd o k fe n = None).
  { intros n Hn. destruct (cstr_dec n k) as [->|D]; [contradiction|]. rewrite cupd_neq by auto. apply (sr_orig _ _ _ _ _ _ _ _ S). auto. }
  destruct fe as [adr|] eqn:Efe.
  - cbn [s_b set_b]. rewrite N1. destruct (smap_remove _ g k G1) as (t' & Et & Gt). rewrite Et. cbn [bind].
    assert (Hgk : g k <> None) by (rewrite G3; intros [H|H]; congruence).
    eexists. split; [reflexivity|]. split; [|spl; auto].
    + constructor; cbn; try apply S; auto.
      * destruct R'. constructor; auto.
      * exists (cupd g k None). split; [auto|]. split.
        -- intros n b' Hn. destruct (cstr_dec n k) as [->|D]; [rewrite cupd_eq in Hn; discriminate|]. rewrite cupd_neq in Hn by auto. auto.
        -- intros n. destruct (cstr_dec n k) as [->|D]; [rewrite !cupd_eq; split; [intros _; right; discriminate|auto]|]. rewrite !cupd_neq by auto. apply G3.
      * apply (tracks_base _ _ _ T). apply S.
      * intros f. destruct (W o (sr_w _ _ _ _ _ _ _ _ S f) Ho). constructor; auto.
    + right. cbn [s_b set_b b_nf set_nf]. destruct (g k); [reflexivity|congruence].
  - eexists. split; [reflexivity|]. split; [|spl; auto].
    + constructor; cbn; try apply S; auto.
      * exists g. split; [rewrite N1; auto|]. split; [auto|]. intros n. rewrite G3. destruct (cstr_dec n k) as [->|D]; [rewrite cupd_eq, Ho; tauto|rewrite cupd_neq by auto; tauto].
      * apply (tracks_base _ _ _ T). apply S.
      * intros f. exact (W o (sr_w _ _ _ _ _ _ _ _ S f) Ho).
Qed.

Definition resolved (a : astate) (n : cstr) : option Z := a_orig (aresolve ex a) n.

Lemma resolve_loop F st a ch {todo} : srel F st a ch todo ->
  exists st', foreach_hash_entry (fun s => b_nf (s_b s)) (per_binding e) st = Ok (st', 0) /\ srel F st' (aresolve ex a) ch todo /\ s_p st' = s_p st /\
    tracks (p_maps (s_p st)) (s_l st) (s_l st') /\ map buser (b_ib (s_b st')) = map buser (b_ib (s_b st)) /\
    b_tools (s_b st') = b_tools (s_b st) /\ b_tables (s_b st') = b_tables (s_b st).
Proof.
  intros S. destruct (sr_nf _ _ _ _ _ _ _ _ S) as (g & (l & c & I & KI & ND & Eg) & G2 & G3).
  set (Q := fun (s : state) (kept rest : list (cstr * nat)) =>
    (exists o, srel F s (with_orig a o) ch todo /\
       (forall n, o n = if existsb (fun p => cstr_eqb (fst p) n) rest then None else resolved a n)) /\
    NoDup (map fst rest) /\ (forall k d, In (k, d) rest -> In d (ch k) /\ a_orig a k = None) /\
    s_p s = s_p st /\ tracks (p_maps (s_p st)) (s_l st) (s_l s) /\ map buser (b_ib (s_b s)) = map buser (b_ib (s_b st)) /\
    b_tools (s_b s) = b_tools (s_b st) /\ b_tables (s_b s) = b_tables (s_b st)).
  assert (Hex : forall n (r : list (cstr * nat)), existsb (fun p => cstr_eqb (fst p) n) r = true <-> In n (map fst r)).
  { intros n r. rewrite existsb_exists, in_map_iff. split; intros (x & A & B); exists x.
    - apply cstr_eqb_ok in B. auto.
    - split; [auto|]. apply cstr_eqb_ok. auto. }
  unfold foreach_hash_entry. rewrite (inv_head _ _ _ _ _ I).
  destruct (foreach_del anyk strhash libc_strcmp (strcmp_cmp_ok _ _) (fun s => b_nf (s_b s)) (per_binding e) Q) with (rest := c) (lr := l) (kept := @nil (cstr * nat)) (lk := @nil nat) (s := st) (fuel := length (ht_table (b_nf (s_b st))))
    as (st' & kept' & l' & E & _ & HQ & _ & _ & _).
  - intros s kept k d rest ((o & So & Ho) & Hnd & Hin & HP & HT & HB & Ht & Htb) _. inversion Hnd as [|? ? Hnk Hnd' Enk]; subst.
    destruct (Hin k d (or_introl eq_refl)) as [Hd Hok].
    assert (Hok' : o k = None) by (rewrite Ho; cbn; rewrite cstr_eqb_refl; reflexivity).
    destruct (per_binding_spec F s a o ch k d So Hd Hok') as (s' & Es & Ss & Ps & Ts & Bs & Tls & Tbs & Hc).
    exists s'. split; [auto|].
    assert (HS : exists o', srel F s' (with_orig a o') ch todo /\ forall n, o' n = if existsb (fun p => cstr_eqb (fst p) n) rest then None else resolved a n).
    { eexists. split; [exact Ss|]. intros n. destruct (cstr_dec n k) as [->|D].
      - rewrite cupd_eq. destruct (existsb (fun p => cstr_eqb (fst p) k) rest) eqn:Ex; [apply Hex in Ex; contradiction|].
        unfold resolved, aresolve. cbn [a_orig]. rewrite Hok. destruct (a_stack a k) eqn:Est; [|reflexivity].
        exfalso. apply (ch_nil e ex rl F s _ ch todo k So) in Est. rewrite Est in Hd. destruct Hd.
      - rewrite cupd_neq by auto. rewrite Ho. cbn. rewrite (cstr_eqb_neq k n) by congruence. reflexivity. }
    assert (HT' : tracks (p_maps (s_p st)) (s_l st) (s_l s')) by (eapply tracks_trans; [exact HT|rewrite <- HP; exact Ts]).
    assert (Hin' : forall k0 d0, In (k0, d0) rest -> In d0 (ch k0) /\ a_orig a k0 = None) by (intros; apply Hin; right; auto).
    assert (HQ' : forall kk, Q s' kk rest) by (intros kk; unfold Q; spl; auto; congruence).
    destruct Hc as [[_ Hc]|Hc]; [left; auto|right; auto].
  - unfold Q. spl; auto.
    + exists (a_orig a). split; [destruct a; exact S|]. intros n. destruct (existsb (fun p => cstr_eqb (fst p) n) c) eqn:Ex.
      * apply Hex in Ex. apply in_map_iff in Ex. destruct Ex as ([k d] & <- & Hx). cbn.
        destruct (a_orig a k) eqn:Eo; [|reflexivity]. exfalso.
        assert (Hg : g k = None) by (apply G3; right; congruence). rewrite <- Eg in Hg.
        rewrite (aget_In cstr_eqb cstr_eqb_ok c k d ND Hx) in Hg. discriminate.
      * unfold resolved, aresolve. cbn [a_orig]. destruct (a_orig a n) eqn:Eo; [reflexivity|].
        destruct (a_stack a n) eqn:Est; [reflexivity|]. exfalso.
        assert (Hg : g n <> None) by (rewrite G3; intros [H|H]; congruence). rewrite <- Eg in Hg.
        destruct (aget cstr_eqb c n) as [v|] eqn:Ev; [|congruence]. apply (aget_Some cstr_eqb cstr_eqb_ok) in Ev.
        assert (In n (map fst c)) by (apply in_map_iff; exists (n, v); auto). apply Hex in H. congruence.
    + intros k d Hx. pose proof (aget_In cstr_eqb cstr_eqb_ok c k d ND Hx) as Hg. rewrite Eg in Hg. split; [auto|].
      destruct (a_orig a k) eqn:Eo; [|reflexivity]. exfalso. assert (g k = None) by (apply G3; right; congruence). congruence.
    + constructor.
  - exact I.
  - reflexivity.
  - exact (Forall2_length _ _ _ (inv_cont _ _ _ _ _ I)).
  - exact KI.
  - exact ND.
  - rewrite <- (Forall2_length _ _ _ (inv_cont _ _ _ _ _ I)). exact (l_le_table _ _ I).
  - exists st'. split; [exact E|]. destruct HQ as ((o & So & Ho) & _ & _ & HP & HT & HB & H1 & H2). split; [|auto 6].
    apply (srel_orig_ext F st' a o (resolved a) ch todo) in So; [exact So|]. exact Ho.
Qed.

Lemma fn_tbl F st a ch todo : srel F st a ch todo -> tbl_ok (b_ib (s_b st)) (b_fn (s_b st)) (Gst a).
Proof.
  intros S. pose proof (sr_b _ _ _ _ _ _ _ _ S) as R. destruct (br_fn _ _ _ _ _ R) as (l & c & I & _ & ND & Eg).
  exists l, c. split; [auto|]. intros n b Hb. pose proof (aget_In cstr_eqb cstr_eqb_ok c n b ND Hb) as Hg. rewrite Eg in Hg.
  assert (Hin : In b (ch n)) by (destruct (ch n); [discriminate|injection Hg as ->; left; auto]).
  destruct (Forall2_In_l _ _ _ _ (br_stack _ _ _ _ _ R n) Hin) as (x & Hx & He).
  destruct (entry_user _ _ _ He) as (ib & A & B & _). exists ib. split; [auto|]. unfold Gst. rewrite B. apply in_map. auto.
Qed.

Lemma finish_spec F st a ch {todo} : srel F st a ch todo ->
  exists st', dlopen_finish e st = Ok st' /\ srel F st' (aresolve ex a) ch todo /\ memf (aresolve ex a) (s_p st) (s_p st') /\ bext (s_b st) (s_b st').
Proof.
  intros S. unfold dlopen_finish. destruct (resolve_loop F st a ch S) as (st1 & E1 & S1 & P1 & T1 & Bu & Bt & Btb). rewrite E1. cbn [bind].
  unfold update_all_library_gots. rewrite (sr_maps _ _ _ _ _ _ _ _ S1).
  destruct (update_gots_base e ex rl _ _ _ (fn_tbl _ _ _ _ _ S1) (a_maps (aresolve ex a)) (s_l st1) (s_p st1) (sr_lib _ _ _ _ _ _ _ _ S1) (sr_l _ _ _ _ _ _ _ _ S1))
    as (l3 & p3 & EG & LB & LG & PM & PF & W & U). rewrite EG. cbn [bind]. eexists. split; [reflexivity|]. split; [|split; [|apply bext_eq; auto]].
  - constructor; cbn; try apply S1; auto. rewrite PM. apply S1.
  - rewrite <- P1. split; [auto|]. split; [auto|]. split.
    2:{ eapply wrote_incl; [|exact U]. intros x v (pre & m & rest & n & A1 & A2 & A3 & A4). exists m, n. split; [|auto].
        exists pre, rest. split; [|auto]. rewrite (sr_maps _ _ _ _ _ _ _ _ S1). auto. }
    intros x. cbn [s_p set_p].
    destruct (W x) as [Hx|(pre & m & rest & n & A1 & A2 & A3 & A4)]; [auto|]. right. exists m, n. split; [|auto].
    exists pre, rest. split; [|auto]. rewrite (sr_maps _ _ _ _ _ _ _ _ S1). auto.
Qed.

(** *** one operation, and histories *)
Definition lib_op (o : op) : Prop := forall m, In m (op_libs o) -> lib_ok e ex rl m.

Lemma srel_maps F st a ch {todo} p' maps' : srel F st a ch todo -> p_maps p' = maps' -> (forall m, In m maps' -> lib_ok e ex rl m) ->
  srel F (set_p p' st) (mkA (a_init a) (a_main a) (a_tools a) (a_stack a) (a_orig a) maps') ch todo.
Proof. intros S E H. constructor; cbn; try apply S; auto. Qed.
Lemma prel_maps st a p' maps' : prel st a -> p_maps p' = maps' -> (forall m, In m maps' -> lib_ok e ex rl m) ->
  prel (set_p p' st) (mkA (a_init a) (a_main a) (a_tools a) (a_stack a) (a_orig a) maps').
Proof. intros S E H. constructor; cbn; try apply S; auto. Qed.

Lemma rel_lib F st a : rel F st a -> (forall m, In m (a_maps a) -> lib_ok e ex rl m) /\ p_maps (s_p st) = a_maps a.
Proof. intros [P|[ch S]]; [split; apply P|split; apply S]. Qed.

Lemma step_spec F st a o : rel F st a -> (F -> fresh_op e a o) -> lib_op o ->
  let r := astep ins_c ex e a o in
  exists st', step e st o = Ok (st', snd r) /\ rel F st' (fst r) /\ bext (s_b st) (s_b st') /\
    match o with OFilter f => s_p st' = mkPS (p_maps (s_p st)) (p_mem (s_p st)) (p_log (s_p st)) f
               | OLoad _ m | OUnload _ m => p_mem (s_p st') = m /\ p_filter (s_p st') = p_filter (s_p st) /\ p_log (s_p st') = p_log (s_p st)
               | _ => memf (fst r) (s_p st) (s_p st') end.
Proof.
  intros R HF HL r. destruct (rel_lib _ _ _ R) as [RL RM]. destruct o as [ubs tool|t v|t|f|libs mem| |keep mem]; cbn [step] in *.
  - destruct (wrap_spec F st a ubs tool R HF) as (st' & ch & E & S & M & B). rewrite E. cbn [bind]. exists st'. unfold r. cbn [SpecCore.astep].
    destruct (awrap a ubs tool) as [a' ms]. cbn [fst snd] in *. split; [destruct ms; reflexivity|]. split; [right; eauto|]. auto.
  - unfold gotcha_set_priority, api_init. destruct (init_any (wrap_n e 2) F st a R) as (st1 & ch & E & S & M & B). cbn [wrap_n] in *. rewrite E. cbn [bind].
    pose proof (sr_b _ _ _ _ _ _ _ _ S) as RB. destruct (br_tools _ _ _ _ _ RB) as [l TO].
    destruct (set_priority_spec (e_ps e) _ l t v Hps TO) as (ts & l' & E2 & TO2 & Pr & Hb). rewrite E2. cbn [bind].
    assert (HN : forall j x, nth_error (ts_heap (b_tools (s_b st1))) j = Some x -> exists x', nth_error (ts_heap ts) j = Some x' /\ t_name x' = t_name x).
    { intros j x Hj. destruct (Hb j x Hj) as (x' & H1 & H2). exists x'. split; [auto|]. unfold tbind in H2. congruence. }
    eexists. split; [reflexivity|]. split; [right; exists ch|split; [|exact M]]; unfold r; cbn [SpecCore.astep fst].
    2:{ eapply bext_trans; [exact B|]. intros i x n E3 E4. split; [|exact E4]. apply (entry_set_tools _ _ HN). auto. }
    constructor; cbn; try apply S.
    + rewrite <- (br_prios _ _ _ _ _ RB), <- Pr. eapply brel_set_tools; [exact RB|exact TO2|exact HN].
    + intros f. destruct (sr_w _ _ _ _ _ _ _ _ S f). constructor; auto.
  - unfold gotcha_get_priority, api_init. destruct (init_any (wrap_n e 2) F st a R) as (st1 & ch & E & S & M & B). cbn [wrap_n] in *. rewrite E. cbn [bind].
    pose proof (sr_b _ _ _ _ _ _ _ _ S) as RB. destruct (br_tools _ _ _ _ _ RB) as [l TO].
    rewrite (get_configuration_spec _ l t TO), (br_prios _ _ _ _ _ RB). cbn [bind]. unfold r. cbn [SpecCore.astep fst snd].
    exists st1. split; [destruct (aget cstr_eqb (a_tools (ainit a)) t); reflexivity|]. split; [right; eauto|]. auto.
  - eexists. split; [reflexivity|]. split; [|split; [apply bext_refl|reflexivity]]. unfold r. cbn [SpecCore.astep fst snd].
    destruct R as [P|[ch S]]; [left|right; exists ch].
    + pose proof (prel_maps st a (mkPS (p_maps (s_p st)) (p_mem (s_p st)) (p_log (s_p st)) f) (a_maps a) P RM RL) as H. destruct a; exact H.
    + pose proof (srel_maps F st a ch (mkPS (p_maps (s_p st)) (p_mem (s_p st)) (p_log (s_p st)) f) (a_maps a) S RM RL) as H. destruct a; exact H.
  - eexists. split; [reflexivity|]. split; [|split; [apply bext_refl|auto]]. unfold r. cbn [SpecCore.astep fst snd].
    assert (H : forall m, In m (a_maps a ++ libs) -> lib_ok e ex rl m) by (intros m Hm; apply in_app_or in Hm; destruct Hm; auto).
    destruct R as [P|[ch S]]; [left; apply prel_maps|right; exists ch; apply srel_maps]; auto; cbn; congruence.
  - unfold r. cbn [SpecCore.astep fst snd]. destruct R as [P|[ch S]].
    + rewrite (pr_i _ _ P), (pr_ai _ _ P). exists st. split; [reflexivity|]. split; [left; auto|]. split; [apply bext_refl|apply memf_refl].
    + rewrite (sr_init _ _ _ _ _ _ _ _ S), (sr_ainit _ _ _ _ _ _ _ _ S). destruct (finish_spec F st a ch S) as (st' & E & S' & M & B).
      rewrite E. cbn [bind]. exists st'. split; [reflexivity|]. split; [right; eauto|auto].
  - eexists. split; [reflexivity|]. split; [|split; [apply bext_refl|auto]]. unfold r. cbn [SpecCore.astep fst snd].
    assert (H : forall m, In m (filter keep (a_maps a)) -> lib_ok e ex rl m) by (intros m Hm; apply filter_In in Hm; apply RL; tauto).
    destruct R as [P|[ch S]]; [left; apply prel_maps|right; exists ch; apply srel_maps]; auto; cbn; congruence.
Qed.

Lemma run_spec F : forall ops st a, rel F st a -> (F -> fresh_ops ins_c ex e a ops) -> (forall o, In o ops -> lib_op o) ->
  exists st', run e st ops = Ok (st', snd (arun ins_c ex e a ops)) /\ rel F st' (fst (arun ins_c ex e a ops)).
Proof.
  induction ops as [|o r IH]; intros st a R HF HL; cbn [run arun].
  - exists st. auto.
  - destruct (step_spec F st a o R) as (st1 & E1 & R1 & _); [intros f; apply HF; auto|apply HL; left; auto|].
    rewrite E1. cbn [bind].
    destruct (IH st1 _ R1) as (st2 & E2 & R2); [intros f; apply HF; auto|intros; apply HL; right; auto|].
    rewrite E2. cbn [bind]. exists st2. destruct (astep ins_c ex e a o) as [a1 x]. cbn [fst snd] in *. destruct (arun ins_c ex e a1 r). cbn [fst snd] in *. auto.
Qed.

Lemma init_rel F maps mem : (forall m, In m maps -> lib_ok e ex rl m) -> rel F (init_state maps mem) (a0 maps).
Proof. intros H. left. constructor; cbn; auto. Qed.
End Main.
