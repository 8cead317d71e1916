(** Every operation of GOTCHA decomposed into small steps, whatever the libraries, the bindings and the memory. *)
From Verif Require Import Base ListFacts HashModel ElfModel ToolModel CoreModel SpecCore SpecRun HashProofs HashTrace ToolProofs CoreMaps CoreRel.

(** tools keep their names and binding tables, new ones have none *)
Record tools_ext (h h' : list tool) : Prop := {
  te_len : (length h <= length h')%nat;
  te_old : forall i t, nth_error h i = Some t -> exists t', nth_error h' i = Some t' /\ t_name t' = t_name t /\ t_binding t' = t_binding t;
  te_new : forall i t, (length h <= i)%nat -> nth_error h' i = Some t -> t_binding t = None }.
(** bindings keep their user's part and table *)
Definition ib_same (l l' : list ibind) : Prop :=
  length l' = length l /\ forall i b, nth_error l i = Some b -> exists b', nth_error l' i = Some b' /\ ib_user b' = ib_user b /\ ib_table b' = ib_table b.
(** the registry of binding tables is the same *)
Record breg_same (b b' : bstate) : Prop := {
  bs_tables : b_tables b' = b_tables b;
  bs_all : b_all b' = b_all b;
  bs_tools : tools_ext (ts_heap (b_tools b)) (ts_heap (b_tools b'));
  bs_ib : ib_same (b_ib b) (b_ib b') }.

(** the tables of bindings a step adds: the tool's name and the bindings *)
Notation trace := (list (cstr * list ubind)).
Inductive mic (e : env) (st : state) : trace -> state -> Prop :=
| mic_prep n l r : prepare_loop e (p_maps (s_p st)) n (s_l st) = Ok (l, r) -> mic e st [] (set_l l st)
| mic_gen g : mic e st [] (set_l (mkLS (l_table (s_l st)) (l_heap (s_l st)) (l_list (s_l st)) g) st)
| mic_upd ibs t l p : update_gots e ibs t (p_maps (s_p st)) (s_l st, s_p st) = Ok (l, p) -> mic e st [] (set_p p (set_l l st))
| mic_main : mic e st [] (mkSt (s_init st) true (s_b st) (s_l st) (s_p st))
| mic_bs bs : breg_same (s_b st) bs -> mic e st [] (set_b bs st)
| mic_add tool t ubs bs tbl : nth_error (ts_heap (b_tools (s_b st))) tool = Some t -> add_binding_to_tool e (s_b st) tool ubs = Ok (bs, tbl) ->
    mic e st [(t_name t, ubs)] (set_b bs st).
Inductive mics (e : env) : trace -> state -> state -> Prop :=
| mics_nil st : mics e [] st st
| mics_cons tr1 tr2 st st1 st2 : mic e st tr1 st1 -> mics e tr2 st1 st2 -> mics e (tr1 ++ tr2) st st2.
Lemma mics_trans e tr1 tr2 st1 st2 st3 : mics e tr1 st1 st2 -> mics e tr2 st2 st3 -> mics e (tr1 ++ tr2) st1 st3.
Proof. induction 1; [auto|]. intros. rewrite <- app_assoc. econstructor; eauto. Qed.

(** small steps adding tables of GOTCHA's own tool at most *)
Definition own (tr : trace) : Prop := forall x, In x tr -> fst x = n_gotcha.
Definition imics (e : env) (st st' : state) : Prop := exists tr, own tr /\ mics e tr st st'.
Lemma own_app tr1 tr2 : own tr1 -> own tr2 -> own (tr1 ++ tr2).
Proof. intros A B x H. apply in_app_or in H. destruct H; auto. Qed.
Lemma imics_nil e st : imics e st st.
Proof. exists []. split; [intros x []|constructor]. Qed.
Lemma imics_cons e st st1 st2 : mic e st [] st1 -> imics e st1 st2 -> imics e st st2.
Proof. intros M (tr & O & H). exists tr. split; [auto|]. apply (mics_cons e [] tr _ _ _ M H). Qed.
Lemma imics_one e st st' : mic e st [] st' -> imics e st st'.
Proof. intros H. eapply imics_cons; [exact H|apply imics_nil]. Qed.
Lemma imics_trans e st1 st2 st3 : imics e st1 st2 -> imics e st2 st3 -> imics e st1 st3.
Proof. intros (tr1 & O1 & H1) (tr2 & O2 & H2). exists (tr1 ++ tr2). split; [apply own_app; auto|]. eapply mics_trans; eauto. Qed.

Lemma tools_ext_refl h : tools_ext h h.
Proof. constructor; [auto|eauto|]. intros i t L H. apply nth_error_Some_lt in H. lia. Qed.
Lemma tools_ext_trans h1 h2 h3 : tools_ext h1 h2 -> tools_ext h2 h3 -> tools_ext h1 h3.
Proof.
  intros [A1 B1 C1] [A2 B2 C2]. constructor; [lia| |].
  - intros i t H. destruct (B1 i t H) as (t' & H' & E1 & E2). destruct (B2 i t' H') as (t2 & H2 & E3 & E4). exists t2. split; [auto|]. split; congruence.
  - intros i t L H. destruct (le_lt_dec (length h2) i) as [L2|L2]; [eauto|]. destruct (nth_error_lt_Some h2 i L2) as [t2 H2]. destruct (B2 i t2 H2) as (t3 & H3 & _ & E).
    assert (t3 = t) by congruence. subst. rewrite E. eauto.
Qed.
Lemma tools_ext_upd h i f : (forall t, t_name (f t) = t_name t /\ t_binding (f t) = t_binding t) -> tools_ext h (upd h i f).
Proof.
  intros F. constructor; [rewrite upd_length; auto| |].
  - intros j t H. rewrite nth_error_upd. destruct (Nat.eqb i j); rewrite H; [|eauto]. cbn. eexists. split; [reflexivity|]. apply F.
  - intros j t L H. apply nth_error_Some_lt in H. rewrite upd_length in H. lia.
Qed.
Lemma ib_same_refl l : ib_same l l.
Proof. split; eauto. Qed.
Lemma ib_same_upd l i f : (forall b, ib_user (f b) = ib_user b /\ ib_table (f b) = ib_table b) -> ib_same l (upd l i f).
Proof.
  intros F. split; [apply upd_length|]. intros j b H. rewrite nth_error_upd. destruct (Nat.eqb i j); rewrite H; [|eauto]. cbn. eexists. split; [reflexivity|]. apply F.
Qed.
Lemma ib_same_trans l1 l2 l3 : ib_same l1 l2 -> ib_same l2 l3 -> ib_same l1 l3.
Proof.
  intros [A1 B1] [A2 B2]. split; [congruence|]. intros i b H. destruct (B1 i b H) as (b' & H' & E1 & E2). destruct (B2 i b' H') as (b2 & H2 & E3 & E4). exists b2. split; [auto|]. split; congruence.
Qed.
Lemma breg_refl b : breg_same b b.
Proof. constructor; auto using tools_ext_refl, ib_same_refl. Qed.
Lemma breg_trans b1 b2 b3 : breg_same b1 b2 -> breg_same b2 b3 -> breg_same b1 b3.
Proof. intros [A1 B1 C1 D1] [A2 B2 C2 D2]. constructor; [congruence|congruence|eapply tools_ext_trans; eauto|eapply ib_same_trans; eauto]. Qed.

(** take one [bind] apart *)
Tactic Notation "iba" hyp(E) "as" simple_intropattern(p) :=
  match type of E with bind ?x _ = Ok _ => let B := fresh "B" in destruct x as [p|] eqn:B; cbn [bind] in E; [|discriminate E] end.
Ltac ib E := match type of E with bind ?x _ = Ok _ => let B := fresh "B" in destruct x eqn:B; cbn [bind] in E; [|discriminate E] end.

(** *** tools *)
Lemma remove_tool_ext ts j ts' : remove_tool_from_list ts j = Ok ts' -> tools_ext (ts_heap ts) (ts_heap ts').
Proof.
  unfold remove_tool_from_list. destruct (ts_head ts) as [hd|]; [|intros E; injection E as <-; apply tools_ext_refl]. intros E. ib E. destruct (_ =? 0).
  - ib E. injection E as <-. apply tools_ext_refl.
  - ib E. ib E. destruct (t_next _); [|discriminate E]. ib E. destruct (_ =? 0); [|injection E as <-; apply tools_ext_refl]. ib E. injection E as <-. apply tools_ext_upd. auto.
Qed.
Lemma reorder_tool_ext ts j ts' : reorder_tool ts j = Ok ts' -> tools_ext (ts_heap ts) (ts_heap ts').
Proof.
  unfold reorder_tool. intros E. ib E. assert (H : forall v, tools_ext (ts_heap ts) (upd (ts_heap ts) j (set_tnext v))) by (intros; apply tools_ext_upd; auto).
  destruct (ts_head ts) as [hd|]; [|injection E as <-; apply H]. ib E. destruct (_ >=? _); [injection E as <-; apply H|]. ib E. ib E. injection E as <-.
  cbn [ts_heap]. eapply tools_ext_trans; [apply H|]. apply tools_ext_upd. auto.
Qed.
Lemma get_or_create_ext ps ts n ts' i : get_or_create_tool ps ts n = Ok (ts', i) -> tools_ext (ts_heap ts) (ts_heap ts').
Proof.
  unfold get_or_create_tool. intros E. iba E as o. destruct o; [injection E as <- _; apply tools_ext_refl|]. unfold create_tool in E. ib E. ib E. injection E as <- _.
  eapply tools_ext_trans; [|eapply reorder_tool_ext; eassumption]. cbn [ts_heap]. constructor.
  - rewrite app_length. lia.
  - intros j t H. exists t. split; [|auto]. rewrite nth_error_app1; [auto|]. eapply nth_error_Some_lt; eauto.
  - intros j t L H. rewrite nth_error_app2 in H by auto. destruct (j - length (ts_heap ts))%nat as [|k]; cbn in H; [injection H as <-; auto|destruct k; discriminate H].
Qed.
Lemma get_tool_name ts n i t : get_tool ts n = Ok (Some i) -> nth_error (ts_heap ts) i = Some t -> t_name t = n.
Proof.
  unfold get_tool. generalize (length (ts_heap ts)), (ts_head ts). intros fuel. induction fuel as [|fuel IH]; intros p E H; cbn [get_tool_loop] in E; destruct p as [j|]; try discriminate E.
  iba E as x. destruct (_ =? 0) eqn:C; [|eapply IH; eauto]. injection E as <-. unfold deref in B. rewrite H in B. injection B as <-. apply Z.eqb_eq in C. apply libc_strcmp_eq0 in C. auto.
Qed.
Lemma get_or_create_name ps ts n ts' i t : get_or_create_tool ps ts n = Ok (ts', i) -> nth_error (ts_heap ts') i = Some t -> t_name t = n.
Proof.
  unfold get_or_create_tool. intros E H. iba E as o. destruct o; [injection E as <- <-; eapply get_tool_name; eauto|]. unfold create_tool in E. ib E. iba E as ts2. injection E as <- <-.
  apply reorder_tool_ext in B1. destruct B1 as [_ B1 _]. cbn [ts_heap] in B1. destruct (B1 (length (ts_heap ts)) (mkTool n None None default_priority a None)) as (t' & H' & N & _).
  { rewrite nth_error_app2 by auto. rewrite Nat.sub_diag. reflexivity. }
  cbn [t_name] in N. congruence.
Qed.
Lemma set_priority_ext ps ts n v ts' : set_priority_int ps ts n v = Ok ts' -> tools_ext (ts_heap ts) (ts_heap ts').
Proof.
  unfold set_priority_int. intros E. iba E as [ts1 i]. iba E as [ts2 j]. ib E.
  eapply tools_ext_trans; [eapply get_or_create_ext; eassumption|]. eapply tools_ext_trans; [|eapply tools_ext_trans; [eapply get_or_create_ext; eassumption|]].
  - cbn [ts_heap]. apply tools_ext_upd. auto.
  - eapply tools_ext_trans; [eapply remove_tool_ext; eassumption|eapply reorder_tool_ext; eassumption].
Qed.

(** *** bindings *)
Lemma breg_ib b l : ib_same (b_ib b) l -> breg_same b (set_ib l b).
Proof. intros H. constructor; auto. apply tools_ext_refl. Qed.
Lemma set_wrappee_reg b h v b' : set_wrappee b h v = Ok b' -> breg_same b b'.
Proof. unfold set_wrappee. destruct (b_handles b h); [|discriminate]. intros E. injection E as <-. apply breg_ib. apply ib_same_upd. auto. Qed.
Lemma insert_at_head_reg b i j b' : insert_at_head b i j = Ok b' -> breg_same b b'.
Proof.
  unfold insert_at_head. intros E. ib E. ib E. ib E. iba E as [t ?]. ib E. injection E as <-.
  eapply breg_trans; [apply breg_ib; apply (ib_same_upd _ i (set_inext (Some j))); auto|]. eapply breg_trans; [eapply set_wrappee_reg; eassumption|].
  constructor; auto using tools_ext_refl, ib_same_refl.
Qed.
Lemma insert_after_reg b i j b' : insert_after_pos b i j = Ok b' -> breg_same b b'.
Proof.
  unfold insert_after_pos. intros E. ib E. ib E. ib E. ib E. ib E. injection E as <-.
  eapply breg_trans; [eapply set_wrappee_reg; eassumption|]. eapply breg_trans; [eapply set_wrappee_reg; eassumption|].
  eapply breg_trans; [apply breg_ib; apply (ib_same_upd _ i (set_inext (ib_next a3))); auto|]. apply breg_ib. apply ib_same_upd. auto.
Qed.
Lemma place_reg b i n w p b' r : place_binding b i n w p = Ok (b', r) -> breg_same b b'.
Proof.
  unfold place_binding. intros E. iba E as o. destruct o as [hd|].
  - ib E. destruct (_ <? _); [ib E; injection E as <- _; eapply insert_at_head_reg; eassumption|]. iba E as o. destruct o; [|injection E as <- _; apply breg_refl].
    ib E. injection E as <- _. eapply insert_after_reg; eassumption.
  - ib E. injection E as <- _. constructor; auto using tools_ext_refl, ib_same_refl.
Qed.

(** *** what does not change *)
Definition same_frame (st st' : state) : Prop := s_init st' = s_init st /\ p_maps (s_p st') = p_maps (s_p st) /\ p_filter (s_p st') = p_filter (s_p st).
Lemma update_got_frame e ibs t m rest l p l' p' : update_library_got e ibs t m rest (l, p) = Ok (l', p') -> p_maps p' = p_maps p /\ p_filter p' = p_filter p.
Proof.
  unfold update_library_got. intros E. iba E as [l1 i]. ib E. destruct (negb a); [injection E as <- <-; auto|]. ib E. destruct (_ =? _); [injection E as <- <-; auto|].
  iba E as [heap prot]. ib E. iba E as [mem log]. injection E as <- <-. auto.
Qed.
(** an invariant of tracking a library is one of the search for a symbol *)
Lemma prepare_ind e n (Q : lstate -> Prop) all :
  (forall pre m rest l l' i, all = pre ++ m :: rest -> Q l -> track_library l m = Ok (l', i) -> Q l') ->
  forall maps pre l l' r, all = pre ++ maps -> Q l -> prepare_loop e maps n l = Ok (l', r) -> Q l'.
Proof.
  intros H. induction maps as [|m maps IH]; intros pre l l' r Hm Hq E; cbn [prepare_loop] in E; [injection E as <- _; auto|].
  iba E as [l1 i]. iba E as o. assert (Q1 : Q l1) by (eapply H; eassumption). destruct o; [injection E as <- _; auto|].
  eapply (IH (pre ++ [m])); [rewrite <- app_assoc; exact Hm|exact Q1|exact E].
Qed.
(** an invariant of update_library_got is one of update_all_library_gots *)
Lemma update_gots_ind e ibs t (Q : lstate -> pstate -> Prop) all :
  (forall pre m rest l p l' p', all = pre ++ m :: rest -> p_maps p = all -> Q l p -> update_library_got e ibs t m rest (l, p) = Ok (l', p') -> Q l' p') ->
  forall maps pre l p l' p', all = pre ++ maps -> p_maps p = all -> Q l p -> update_gots e ibs t maps (l, p) = Ok (l', p') -> Q l' p'.
Proof.
  intros H. induction maps as [|m maps IH]; intros pre l p l' p' Hm Hp Hq E; cbn [update_gots] in E; [injection E as <- <-; auto|].
  iba E as [l1 p1]. eapply (IH (pre ++ [m])); [rewrite <- app_assoc; exact Hm| | |exact E].
  - destruct (update_got_frame _ _ _ _ _ _ _ _ _ B) as [-> _]. auto.
  - eapply H; eassumption.
Qed.
Lemma update_gots_frame e ibs t : forall maps l p l' p', update_gots e ibs t maps (l, p) = Ok (l', p') -> p_maps p' = p_maps p /\ p_filter p' = p_filter p.
Proof.
  induction maps as [|m maps IH]; intros l p l' p' E; cbn [update_gots] in E; [injection E as <- <-; auto|]. iba E as [l1 p1].
  apply update_got_frame in B. apply IH in E. destruct B, E. split; congruence.
Qed.
Lemma mic_frame e st tr st' : mic e st tr st' -> same_frame st st'.
Proof. destruct 1; repeat split; auto; cbn [s_p set_p set_l p_maps p_filter]; eapply update_gots_frame; eassumption. Qed.
Lemma mics_frame e tr st st' : mics e tr st st' -> same_frame st st'.
Proof. induction 1 as [|tr1 tr2 st st1 st2 M _ IH]; [repeat split|]. apply mic_frame in M. destruct M as (A & B & C), IH as (A' & B' & C'). repeat split; congruence. Qed.

Lemma imics_frame e st st' : imics e st st' -> same_frame st st'.
Proof. intros (tr & _ & H). eapply mics_frame; eauto. Qed.

(** *** tracking and updating *)
Lemma set_l_same st : set_l (s_l st) st = st.
Proof. destruct st; auto. Qed.
Lemma set_p_same st : set_p (s_p st) st = st.
Proof. destruct st; auto. Qed.
Lemma prepare_symbol_mics e st b st' f : prepare_symbol e st b = Ok (st', f) -> imics e st st'.
Proof.
  unfold prepare_symbol. intros E. ib E. iba E as [l r]. eapply imics_cons; [eapply mic_prep; eassumption|].
  destruct r; [|injection E as <- _; apply imics_nil]. ib E. injection E as <- _. apply imics_one. apply mic_bs. eapply set_wrappee_reg. eassumption.
Qed.
Lemma update_all_mics e t st st' : update_all_library_gots e t st = Ok st' -> imics e st st'.
Proof. unfold update_all_library_gots. intros E. iba E as [l p]. injection E as <-. apply imics_one. eapply mic_upd. eassumption. Qed.

(** *** gotcha_wrap *)
Definition tname (t : option cstr) : cstr := match t with Some n => n | None => n_unspecified end.
(** small steps adding one table, and possibly some of GOTCHA's own *)
Definition wraps_one (e : env) (n : cstr) (ubs : list ubind) (st st' : state) : Prop :=
  exists tr1 tr2, own tr1 /\ own tr2 /\ mics e (tr1 ++ (n, ubs) :: tr2) st st'.
Lemma wraps_own e ubs st st' : wraps_one e n_gotcha ubs st st' -> imics e st st'.
Proof. intros (tr1 & tr2 & O1 & O2 & M). exists (tr1 ++ (n_gotcha, ubs) :: tr2). split; [|auto]. apply own_app; [auto|]. intros x [<-|H]; auto. Qed.
Lemma wraps_frame e n ubs st st' : wraps_one e n ubs st st' -> same_frame st st'.
Proof. intros (tr1 & tr2 & O1 & O2 & M). eapply mics_frame; eauto. Qed.
Lemma wraps_before e n ubs st st1 st2 : imics e st st1 -> wraps_one e n ubs st1 st2 -> wraps_one e n ubs st st2.
Proof. intros (tr & O & M) (tr1 & tr2 & O1 & O2 & M'). exists (tr ++ tr1), tr2. split; [apply own_app; auto|]. split; [auto|]. rewrite <- app_assoc. eapply mics_trans; eauto. Qed.
Lemma wraps_after e n ubs st st1 st2 : wraps_one e n ubs st st1 -> imics e st1 st2 -> wraps_one e n ubs st st2.
Proof. intros (tr1 & tr2 & O1 & O2 & M') (tr & O & M). exists tr1, (tr2 ++ tr). split; [auto|]. split; [apply own_app; auto|]. rewrite app_comm_cons, app_assoc. eapply mics_trans; eauto. Qed.

Section Wrap.
Context (e : env) (rec : wrap_fun).
Context (Hrec : forall st ubs t st' c, s_init st = true -> rec st ubs t = Ok (st', c) -> wraps_one e (tname t) ubs st st').

Lemma wrap_main_mics st n st' : s_init st = true -> wrap_main e rec st n = Ok st' -> imics e st st'.
Proof.
  unfold wrap_main. intros I E. destruct (_ && _); [|injection E as <-; apply imics_nil]. iba E as [st1 c1]. iba E as [st2 c2]. injection E as <-.
  eapply imics_cons; [apply mic_main|]. assert (M := Hrec (mkSt (s_init st) true (s_b st) (s_l st) (s_p st)) _ _ _ _ I B). apply wraps_own in M. eapply imics_trans; [exact M|].
  eapply wraps_own. eapply (Hrec _ _ (Some n_gotcha)); [|eassumption]. apply imics_frame in M. destruct M as [M _]. rewrite M. exact I.
Qed.
Lemma rewrite_mics st b st' r : s_init st = true -> rewrite_wrapper_orders e rec st b = Ok (st', r) -> imics e st st'.
Proof.
  unfold rewrite_wrapper_orders. intros I E. ib E. ib E. ib E. iba E as [bs r']. injection E as <- _.
  eapply imics_trans; [eapply wrap_main_mics; eassumption|]. apply imics_one. apply mic_bs. eapply place_reg. eassumption.
Qed.
Lemma wrap_one_mics na b st pr st' pr' : s_init st = true -> wrap_one e rec na b (st, pr) = Ok (st', pr') -> imics e st st'.
Proof.
  unfold wrap_one. intros I E. iba E as [st1 r]. ib E. iba E as [st2 pr2].
  eapply imics_trans; [eapply rewrite_mics; eassumption|]. assert (M : imics e st1 st2).
  { destruct (need_lookup r); [|injection B1 as <- _; apply imics_nil]. iba B1 as [st3 f]. eapply imics_trans; [eapply prepare_symbol_mics; eassumption|].
    destruct f; [injection B1 as <- _; apply imics_nil|]. ib B1. injection B1 as <- _. apply imics_one. apply mic_bs. constructor; auto using tools_ext_refl, ib_same_refl. }
  destruct (need_binding r); [|injection E as <- _; auto]. ib E. ib E. injection E as <- _. auto.
Qed.
Lemma wrap_loop_mics na : forall n b st pr st' pr', s_init st = true -> wrap_loop e rec na n b (st, pr) = Ok (st', pr') -> imics e st st'.
Proof.
  induction n as [|n IH]; intros b st pr st' pr' I E; cbn [wrap_loop] in E; [injection E as <- _; apply imics_nil|]. iba E as [st1 pr1]. apply wrap_one_mics in B; [|auto].
  eapply imics_trans; [exact B|]. apply IH in E; [auto|]. apply imics_frame in B. destruct B as [B _]. rewrite B. auto.
Qed.
Lemma wrap_tool_mics st ubs tool st' c : s_init st = true -> wrap_tool e rec st ubs tool = Ok (st', c) -> wraps_one e (tname tool) ubs st st'.
Proof.
  unfold wrap_tool. intros I E. iba E as [ts i]. iba E as [bs tbl]. ib E. iba E as [st1 pr]. ib E. injection E as <- _.
  eapply wraps_before; [eapply imics_cons; [apply (mic_bs e st (set_handles (null_handles ubs (b_handles (s_b st))) (s_b st))); constructor; auto using tools_ext_refl, ib_same_refl|]|].
  { eapply imics_cons; [eapply (mic_bs _ _ (set_btools ts _)); constructor; [reflexivity|reflexivity| |apply ib_same_refl]; eapply get_or_create_ext; exact B|].
    eapply imics_cons; [apply (mic_gen _ _ (u32 (l_gen (s_l st) + 1)))|apply imics_nil]. }
  apply wrap_loop_mics in B2; [|exact I]. eapply wraps_after; [|eapply imics_trans; [exact B2|]].
  2:{ destruct (pr_new pr); [eapply update_all_mics; eassumption|injection B3 as <-; apply imics_nil]. }
  assert (T : exists t, nth_error (ts_heap ts) i = Some t).
  { unfold add_binding_to_tool in B0. cbn [s_b set_l set_b b_tools set_btools] in B0. destruct (fill_bindings _ _ _ _). ib B0. ib B0. iba B0 as t. exists t. unfold deref in B6. destruct (nth_error _ i); congruence. }
  destruct T as [t T]. pose proof (get_or_create_name _ _ _ _ _ _ B T) as N. exists [], []. split; [intros x []|]. split; [intros x []|]. cbn [app]. fold (tname tool) in N. rewrite <- N.
  apply (mics_cons _ [(t_name t, ubs)] []) with (st1 := set_b bs (set_l (mkLS (l_table (s_l st)) (l_heap (s_l st)) (l_list (s_l st)) (u32 (l_gen (s_l st) + 1)))
    (set_b (set_btools ts (set_handles (null_handles ubs (b_handles (s_b st))) (s_b st))) (set_b (set_handles (null_handles ubs (b_handles (s_b st))) (s_b st)) st)))); [|constructor].
  eapply mic_add; [exact T|exact B0].
Qed.
End Wrap.
Lemma wrap_n_mics e : forall n st ubs t st' c, s_init st = true -> wrap_n e n st ubs t = Ok (st', c) -> wraps_one e (tname t) ubs st st'.
Proof.
  induction n as [|n IH]; intros st ubs t st' c I E; cbn [wrap_n] in E; [discriminate E|]. unfold wrap_body, gotcha_init in E. rewrite I in E. cbn [bind] in E. eapply wrap_tool_mics; [exact IH|exact I|exact E].
Qed.

(** *** initialisation: the library table is replaced, nothing else of the record of libraries *)
Lemma init_mics e n st st' : gotcha_init e (wrap_n e n) st = Ok st' -> s_init st = false ->
  exists st1, s_init st1 = true /\ l_heap (s_l st1) = l_heap (s_l st) /\ l_list (s_l st1) = l_list (s_l st) /\ l_gen (s_l st1) = l_gen (s_l st) /\
    create_hashtable (e_ps e) 128 link_map_hash link_map_cmp = Ok (l_table (s_l st1)) /\
    s_p st1 = s_p st /\ breg_same (s_b st) (s_b st1) /\ imics e st1 st'.
Proof.
  unfold gotcha_init. intros E I. rewrite I in E. ib E. iba E as [st2 c]. injection E as <-. unfold setup_hash_tables in B. ib B. ib B. ib B. injection B as <-.
  match type of B0 with wrap_n _ _ ?s _ _ = _ => exists s end. split; [reflexivity|]. repeat (split; [reflexivity|]). split; [constructor; auto using tools_ext_refl, ib_same_refl|]. eapply wraps_own. eapply (wrap_n_mics _ _ _ _ (Some n_gotcha)); [reflexivity|exact B0].
Qed.
Lemma init_noop e n st st' : gotcha_init e (wrap_n e n) st = Ok st' -> s_init st = true -> st' = st.
Proof. unfold gotcha_init. intros E I. rewrite I in E. congruence. Qed.

(** *** the end of a dlopen *)
Lemma foreach_mics e : forall fuel i st st' c, foreach_loop fuel (fun s => b_nf (s_b s)) (per_binding e) i st = Ok (st', c) -> imics e st st'.
Proof.
  induction fuel as [|f IH]; intros i st st' c E; cbn [foreach_loop] in E; destruct i as [p|]; try (injection E as <- _; apply imics_nil); [discriminate E|].
  destruct (nth_error _ p) as [en|]; [|discriminate E]. iba E as [st1 r].
  assert (M : imics e st st1).
  { unfold per_binding in B. destruct (he_key en), (he_data en); try discriminate B. ib B. iba B as [st2 fd]. eapply imics_trans; [eapply prepare_symbol_mics; eassumption|].
    destruct fd; [|injection B as <- _; apply imics_nil]. iba B as [t ?]. injection B as <- _. apply imics_one. apply mic_bs. constructor; auto using tools_ext_refl, ib_same_refl. }
  destruct (negb _); [injection E as <- _; auto|]. destruct (nth_error _ p); [|discriminate E]. eapply imics_trans; [exact M|]. eapply IH. exact E.
Qed.
Lemma finish_mics e st st' : dlopen_finish e st = Ok st' -> imics e st st'.
Proof.
  unfold dlopen_finish, foreach_hash_entry. intros E. iba E as [st1 c]. eapply imics_trans; [eapply foreach_mics; eassumption|]. eapply update_all_mics. eassumption.
Qed.

(** *** a whole operation: possibly the initialisation, then small steps *)
Definition inits (e : env) (st st1 : state) : Prop :=
  (st1 = st) \/
  (s_init st = false /\ s_init st1 = true /\ l_heap (s_l st1) = l_heap (s_l st) /\ l_list (s_l st1) = l_list (s_l st) /\ l_gen (s_l st1) = l_gen (s_l st) /\
    create_hashtable (e_ps e) 128 link_map_hash link_map_cmp = Ok (l_table (s_l st1)) /\ s_p st1 = s_p st /\ breg_same (s_b st) (s_b st1)).
Lemma inits_of e n st st1 : gotcha_init e (wrap_n e n) st = Ok st1 -> s_init st1 = true /\ exists st0, inits e st st0 /\ s_init st0 = true /\ imics e st0 st1.
Proof.
  intros E. destruct (s_init st) eqn:I.
  - rewrite (init_noop _ _ _ _ E I). split; [auto|]. exists st. split; [left; auto|]. split; [auto|apply imics_nil].
  - destruct (init_mics _ _ _ _ E I) as (st0 & A & B & C & D & F & G & H & M). split; [apply imics_frame in M; destruct M as [M _]; rewrite M; auto|].
    exists st0. split; [right; repeat (split; [assumption|]); assumption|]. auto.
Qed.
(** the table of bindings an operation adds *)
Definition op_table (o : op) : trace := match o with OWrap ubs t => [(tname t, ubs)] | _ => [] end.
(** tables not of GOTCHA's own tool *)
Definition foreign (tr : trace) : trace := filter (fun x => negb (cstr_eqb (fst x) n_gotcha)) tr.
Lemma foreign_own tr : own tr -> foreign tr = [].
Proof.
  induction tr as [|x tr IH]; intros O; [auto|]. unfold foreign. cbn [filter]. rewrite (O x (or_introl eq_refl)). rewrite (proj2 (cstr_eqb_ok n_gotcha n_gotcha) eq_refl). cbn [negb]. apply IH. intros y H. apply O. right. auto.
Qed.
Lemma foreign_app tr1 tr2 : foreign (tr1 ++ tr2) = foreign tr1 ++ foreign tr2.
Proof. apply filter_app. Qed.

Lemma step_mics e st o st' r : gotcha_op o -> step e st o = Ok (st', r) ->
  (st' = st /\ s_init st = false /\ o = OFinish) \/
  exists st1 tr, inits e st st1 /\ s_init st1 = true /\ mics e tr st1 st' /\ foreign tr = foreign (op_table o).
Proof.
  assert (W : forall st1 st2, imics e st1 st2 -> op_table o = [] -> exists tr, mics e tr st1 st2 /\ foreign tr = foreign (op_table o)).
  { intros st1 st2 (tr & O & M) E. exists tr. split; [auto|]. rewrite E, (foreign_own _ O). auto. }
  intros G E. destruct o as [ubs tool|t v|t|f|libs mem| |keep mem]; cbn [gotcha_op] in G; try contradiction; cbn [step] in E.
  - iba E as [st1 c]. injection E as <- _. unfold gotcha_wrap in B. change (wrap_n e 3) with (wrap_body e (wrap_n e 2)) in B. unfold wrap_body in B. ib B.
    destruct (inits_of _ _ _ _ B0) as (I & st0 & H & I0 & M). right. assert (M' : wraps_one e (tname tool) ubs st0 st1).
    { eapply wraps_before; [exact M|]. eapply wrap_tool_mics; [apply wrap_n_mics|exact I|exact B]. }
    destruct M' as (tr1 & tr2 & O1 & O2 & M'). exists st0, (tr1 ++ (tname tool, ubs) :: tr2). split; [auto|]. split; [auto|]. split; [auto|].
    rewrite foreign_app, (foreign_own tr1 O1). change ((tname tool, ubs) :: tr2) with ([(tname tool, ubs)] ++ tr2). rewrite foreign_app, (foreign_own tr2 O2), app_nil_r. auto.
  - iba E as [st1 c]. injection E as <- _. unfold gotcha_set_priority, api_init in B. ib B. ib B. injection B as <- _. destruct (inits_of _ _ _ _ B0) as (I & st0 & H & I0 & M).
    right. destruct (W st0 (set_b (set_btools a0 (s_b a)) a)) as (tr & M' & F); [|auto|exists st0, tr; auto]. eapply imics_trans; [exact M|]. apply imics_one. apply mic_bs.
    constructor; [reflexivity|reflexivity| |apply ib_same_refl]. cbn [b_tools set_btools]. eapply set_priority_ext. eassumption.
  - iba E as [st1 [c v]]. injection E as <- _. unfold gotcha_get_priority, api_init in B. ib B. ib B. injection B as <- _. destruct (inits_of _ _ _ _ B0) as (I & st0 & H & I0 & M).
    right. destruct (W st0 a M) as (tr & M' & F); [auto|]. exists st0, tr. auto.
  - destruct (s_init st) eqn:I; [|injection E as <- _; auto]. ib E. injection E as <- _. right. apply finish_mics in B. destruct (W st a B) as (tr & M' & F); [auto|]. exists st, tr.
    split; [left; auto|]. auto.
Qed.
