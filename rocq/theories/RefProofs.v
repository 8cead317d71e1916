(** Proofs about tool names given by reference. *)
From Verif Require Import Base ListFacts HashModel ElfModel ToolModel CoreModel SpecCore SpecRun HashProofs HashTrace ToolProofs CoreMaps CoreRel CoreMicro RefModel SpecRef.
From Coq Require Import Permutation Sorted.

(** *** the names of old tools stay *)
Lemma nth_error_ext_eq {A} (l : list A) : forall l', (forall k, nth_error l k = nth_error l' k) -> l = l'.
Proof.
  induction l as [|x l IH]; intros [|y l'] H; [reflexivity|specialize (H O); discriminate|specialize (H O); discriminate|].
  pose proof (H O) as H0. injection H0 as ->. f_equal. apply IH. intros k. apply (H (S k)).
Qed.
Definition keeps (h h' : list tool) : Prop := (length h <= length h')%nat /\ forall i t, nth_error h i = Some t -> exists t', nth_error h' i = Some t' /\ t_name t' = t_name t.
Lemma keeps_refl h : keeps h h. Proof. split; [auto|eauto]. Qed.
Lemma keeps_trans h1 h2 h3 : keeps h1 h2 -> keeps h2 h3 -> keeps h1 h3.
Proof. intros [A1 B1] [A2 B2]. split; [lia|]. intros i t H. destruct (B1 i t H) as (t' & H' & E). destruct (B2 i t' H') as (t2 & H2 & E2). exists t2. split; [auto|congruence]. Qed.
Lemma ext_keeps h h' : tools_ext h h' -> keeps h h'.
Proof. intros [A B _]. split; [auto|]. intros i t H. destruct (B i t H) as (t' & H' & E & _). eauto. Qed.
Lemma mic_keeps e st tr st' : mic e st tr st' -> keeps (ts_heap (b_tools (s_b st))) (ts_heap (b_tools (s_b st'))).
Proof.
  destruct 1; try apply keeps_refl; cbn [s_b set_b]; [apply ext_keeps; apply (bs_tools _ _ H)|].
  unfold add_binding_to_tool in H0. destruct (fill_bindings _ _ _ _). ib H0. ib H0. ib H0. injection H0 as <- _. cbn [b_tools ts_heap].
  split; [rewrite upd_length; auto|]. intros j x Hx. rewrite nth_error_upd. destruct (Nat.eqb tool j); rewrite Hx; [|eauto]. cbn. eexists. split; [reflexivity|reflexivity].
Qed.
Lemma mics_keeps e tr st st' : mics e tr st st' -> keeps (ts_heap (b_tools (s_b st))) (ts_heap (b_tools (s_b st'))).
Proof. induction 1; [apply keeps_refl|]. eapply keeps_trans; [eapply mic_keeps; eassumption|assumption]. Qed.
Lemma step_keeps e st o st' r : step e st o = Ok (st', r) -> keeps (ts_heap (b_tools (s_b st))) (ts_heap (b_tools (s_b st'))).
Proof.
  intros E. assert (G : gotcha_op o \/ ~ gotcha_op o) by (destruct o; cbn; tauto). destruct G as [G|G].
  - destruct (step_mics e st o st' r G E) as [(-> & _)|(st1 & tr & I & _ & M & _)]; [apply keeps_refl|]. eapply keeps_trans; [|eapply mics_keeps; exact M].
    destruct I as [->|I]; [apply keeps_refl|]. apply ext_keeps. apply bs_tools. apply I.
  - destruct o; cbn [gotcha_op] in G; try tauto; cbn [step] in E; injection E as <- _; apply keeps_refl.
Qed.

(** *** if no name is overwritten nothing differs *)
Lemma rename_other b s : forall of h, ~ In (Some b) of -> rename b s of h = h.
Proof.
  induction of as [|o of IH]; intros [|t h] H; try reflexivity. cbn [rename]. rewrite IH by (intros I; apply H; right; exact I). f_equal.
  destruct o as [b'|]; [|reflexivity]. destruct (Nat.eqb_spec b' b) as [->|]; [|reflexivity]. exfalso. apply H. left. reflexivity.
Qed.
Lemma set_same st : set_b (set_btools (mkTS (ts_heap (b_tools (s_b st))) (ts_head (b_tools (s_b st)))) (s_b st)) st = st.
Proof. destruct st as [i m [[h hd] tb al ibs hs fn nf] l p]. reflexivity. Qed.
Lemma in_new_of arg buf new b : In (Some b) (new_of arg buf new) -> arg = Some b.
Proof.
  unfold new_of. rewrite in_map_iff. intros (t & E & _). destruct arg as [b'|]; [|discriminate]. destruct (_ && _); congruence.
Qed.
Lemma rrun_copied e : forall ops pre st buf of, names_kept (pre ++ ops) -> (forall b, In (Some b) of -> exists o, In o pre /\ gives_name b o) ->
  match run e st (copied buf ops) with
  | Ok (st', rs) => exists r, rrun e (mkR st buf of) ops = Ok (r, rs) /\ r_st r = st'
  | Fault f => rrun e (mkR st buf of) ops = Fault f
  end.
Proof.
  induction ops as [|o ops IH]; intros pre st buf of K U; [cbn; eexists; split; reflexivity|].
  assert (K' : names_kept ((pre ++ [o]) ++ ops)) by (rewrite <- app_assoc; exact K).
  assert (U' : forall new b, In (Some b) (of ++ new_of (named_by o) buf new) -> exists p, In p (pre ++ [o]) /\ gives_name b p).
  { intros new b I. apply in_app_or in I. destruct I as [I|I].
    - destruct (U b I) as (p & P1 & P2). exists p. split; [apply in_or_app; left; exact P1|exact P2].
    - apply in_new_of in I. exists o. split; [apply in_elt|]. destruct o; cbn in I; try discriminate I; [subst; left; eauto|injection I as <-; right; eauto]. }
  assert (G : forall op, (match o with RWrite _ _ => False | _ => True end) -> copied buf (o :: ops) = op :: copied buf ops -> op_of buf o = op ->
    match run e st (copied buf (o :: ops)) with
    | Ok (st', rs) => exists r, rrun e (mkR st buf of) (o :: ops) = Ok (r, rs) /\ r_st r = st'
    | Fault f => rrun e (mkR st buf of) (o :: ops) = Fault f
    end).
  { intros op W -> Eo. cbn [run rrun]. assert (R : rstep e (mkR st buf of) o = do ' (st1, x) <- step e st op; Ok (mkR st1 buf (of ++ new_of (named_by o) buf (skipn (length of) (ts_heap (b_tools (s_b st1))))), [x]))
      by (destruct o; [destruct W|..]; cbn [rstep r_st r_buf r_of]; rewrite Eo; reflexivity).
    rewrite R. destruct (step e st op) as [[st1 x]|f]; cbn [bind]; [|reflexivity].
    specialize (IH (pre ++ [o]) st1 buf (of ++ new_of (named_by o) buf (skipn (length of) (ts_heap (b_tools (s_b st1))))) K' (U' _)).
    destruct (run e st1 (copied buf ops)) as [[st2 rs]|f]; cbn [bind].
    - destruct IH as (r & -> & Er). exists r. split; [reflexivity|exact Er].
    - rewrite IH. reflexivity. }
  destruct o as [b s|ubs tool|b v|b|o]; try (eapply G; [exact I|reflexivity|]; cbn [op_of]; try reflexivity).
  cbn [copied rrun rstep r_st r_buf r_of]. rewrite rename_other.
  2:{ intros I. destruct (U b I) as (p & P1 & P2). apply (K pre b s ops eq_refl p P1 P2). }
  rewrite set_same. cbn [bind]. specialize (IH (pre ++ [RWrite b s]) st (fun x => if Nat.eqb x b then s else buf x) of K').
  assert (U2 : forall b0, In (Some b0) of -> exists o, In o (pre ++ [RWrite b s]) /\ gives_name b0 o).
  { intros b0 I. destruct (U b0 I) as (p & P1 & P2). exists p. split; [apply in_or_app; left; exact P1|exact P2]. }
  specialize (IH U2). destruct (run e st (copied _ ops)) as [[st2 rs]|f]; [destruct IH as (r & -> & Er); exists r; split; [reflexivity|exact Er]|rewrite IH; reflexivity].
Qed.

(** *** the list of tools, whatever their names *)
Definition twf (ts : tstate) (l : list nat) : Prop :=
  lseg (tnx (ts_heap ts)) (ts_head ts) l /\ Permutation l (seq 0 (length (ts_heap ts))) /\
  StronglySorted Z.le (map (tprio (ts_heap ts)) l) /\ (forall t, In t (ts_heap ts) -> t_parent t = None).
Definition TW (ts : tstate) : Prop := exists l, twf ts l.
Lemma twf_lt ts l i : twf ts l -> In i l -> (i < length (ts_heap ts))%nat.
Proof. intros (_ & P & _) H. apply (Permutation_in _ P) in H. apply in_seq in H. lia. Qed.
Lemma twf_in ts l i : twf ts l -> (i < length (ts_heap ts))%nat -> In i l.
Proof. intros (_ & P & _) H. apply (Permutation_in _ (Permutation_sym P)). apply in_seq. lia. Qed.
Lemma twf_nodup ts l : twf ts l -> NoDup l.
Proof. intros (_ & P & _). eapply Permutation_NoDup; [apply Permutation_sym, P|apply seq_NoDup]. Qed.
Lemma twf_info ts ts' l : twf ts l -> map tinfo (ts_heap ts') = map tinfo (ts_heap ts) -> lseg (tnx (ts_heap ts')) (ts_head ts') l -> twf ts' l.
Proof.
  intros (A & B & D & P) E HL. split; [exact HL|]. split; [rewrite (tinfo_length _ _ E); exact B|]. split.
  - erewrite map_ext; [exact D|]. intros. apply tinfo_tprio; auto.
  - eapply tinfo_parent; eauto.
Qed.
Lemma get_tool_first ts l name : twf ts l -> get_tool ts name = Ok (find (fun i => cstr_eqb (ToolProofs.tname (ts_heap ts) i) name) l).
Proof.
  intros (A & P & _). unfold get_tool. apply get_tool_loop_spec; [exact A|]. rewrite (Permutation_length P), seq_length. lia.
Qed.
(** the result in terms of the names *)
Lemma get_tool_none ts name : TW ts -> get_tool ts name = Ok None <-> ~ In name (map t_name (ts_heap ts)).
Proof.
  intros (l & W). rewrite (get_tool_first ts l name W). split.
  - intros E I. injection E as E. apply in_map_iff in I. destruct I as (t & En & Ht). apply In_nth_error in Ht. destruct Ht as [i Hi].
    pose proof (find_none _ _ E i (twf_in _ _ _ W (nth_error_Some_lt _ _ _ Hi))) as E'. cbn in E'. unfold ToolProofs.tname in E'. rewrite Hi in E'. subst. rewrite cstr_eqb_refl in E'. discriminate.
  - intros N. f_equal. destruct (find _ l) as [i|] eqn:E; [|reflexivity]. exfalso. apply N. apply find_some in E. destruct E as [Hi E].
    destruct (nth_error_lt_Some _ _ (twf_lt _ _ _ W Hi)) as [t Ht]. unfold ToolProofs.tname in E. rewrite Ht in E. apply cstr_eqb_ok in E. subst. apply in_map. eapply nth_error_In; eauto.
Qed.
Lemma get_tool_only ts name i t : TW ts -> nth_error (ts_heap ts) i = Some t -> t_name t = name ->
  (forall j t', nth_error (ts_heap ts) j = Some t' -> t_name t' = name -> j = i) -> get_tool ts name = Ok (Some i).
Proof.
  intros (l & W) Hi En U. rewrite (get_tool_first ts l name W). f_equal. destruct (find _ l) as [j|] eqn:E.
  - apply find_some in E. destruct E as [Hj E]. destruct (nth_error_lt_Some _ _ (twf_lt _ _ _ W Hj)) as [t' Ht]. unfold ToolProofs.tname in E. rewrite Ht in E. apply cstr_eqb_ok in E.
    f_equal. eapply U; eauto.
  - pose proof (find_none _ _ E i (twf_in _ _ _ W (nth_error_Some_lt _ _ _ Hi))) as E'. cbn in E'. unfold ToolProofs.tname in E'. rewrite Hi in E'. subst. rewrite cstr_eqb_refl in E'. discriminate.
Qed.

Lemma create_twf ps ts name : 48 <= ps -> TW ts ->
  exists ts', create_tool ps ts name = Ok (ts', length (ts_heap ts)) /\ TW ts' /\ map tinfo (ts_heap ts') = map tinfo (ts_heap ts) ++ [(name, -1, None, None)].
Proof.
  intros Hps (l & H). unfold create_tool.
  destruct (create_spec (D:=nat) ps 24 strhash libc_strcmp Hps ltac:(lia)) as (ch & Ech & _). rewrite Ech. cbn [bind].
  set (nt := mkTool name None None default_priority ch None). set (h := ts_heap ts ++ [nt]).
  assert (Hnt : nth_error h (length (ts_heap ts)) = Some nt) by (unfold h; rewrite nth_error_app2 by lia; rewrite Nat.sub_diag; reflexivity).
  assert (Hold : forall i, (i < length (ts_heap ts))%nat -> nth_error h i = nth_error (ts_heap ts) i) by (intros i Hi; unfold h; apply nth_error_app1; auto).
  pose proof (twf_nodup _ _ H) as ND. assert (Hnl : ~ In (length (ts_heap ts)) l) by (intros Hi; apply (twf_lt _ _ _ H) in Hi; lia).
  pose proof H as (HL & HP & HS & HN).
  destruct (reorder_spec (mkTS h (ts_head ts)) l (length (ts_heap ts)) nt) as (ts' & l' & A1 & A2 & A3 & A4 & A5); cbn [ts_heap ts_head]; auto.
  - eapply lseg_ext; [|exact HL]. intros i Hi. unfold tnx. rewrite Hold; [auto|]. eapply twf_lt; eauto.
  - erewrite map_ext_in; [exact HS|]. intros i Hi. unfold tprio. rewrite Hold; [auto|]. eapply twf_lt; eauto.
  - rewrite (Permutation_length HP), seq_length. unfold h. rewrite app_length. lia.
  - rewrite A1. cbn [bind]. exists ts'. split; [reflexivity|].
    assert (Ei : map tinfo (ts_heap ts') = map tinfo (ts_heap ts) ++ [(name, -1, None, None)]) by (rewrite A5; cbn [ts_heap]; unfold h; rewrite map_app; reflexivity).
    split; [|exact Ei]. cbn [ts_heap] in A4, A5.
    assert (EL : length (ts_heap ts') = S (length (ts_heap ts))) by (rewrite (tinfo_length _ _ A5); unfold h; rewrite app_length; cbn; lia).
    exists l'. split; [exact A2|]. split; [|split].
    + rewrite EL, A3, HP, seq_S. cbn. apply Permutation_cons_append.
    + erewrite map_ext; [exact A4|]. intros. apply tinfo_tprio; auto.
    + eapply tinfo_parent; [exact A5|]. unfold h. intros t Ht. apply in_app_or in Ht. destruct Ht as [Ht|[<-|[]]]; [apply HN; auto|reflexivity].
Qed.
Lemma get_or_create_twf ps ts name ts' i : 48 <= ps -> TW ts -> get_or_create_tool ps ts name = Ok (ts', i) -> TW ts'.
Proof.
  intros Hps W E. unfold get_or_create_tool in E. iba E as o. destruct o as [j|]; [injection E as <- _; exact W|].
  destruct (create_twf ps ts name Hps W) as (ts2 & E2 & W2 & _). rewrite E2 in E. injection E as <- _. exact W2.
Qed.
Lemma upd_binding_twf ts i v : TW ts -> TW (mkTS (upd (ts_heap ts) i (set_tbinding v)) (ts_head ts)).
Proof.
  intros (l & A & P & S & N). exists l. split; [|split; [|split]]; cbn [ts_heap ts_head].
  - eapply lseg_ext; [|exact A]. intros j _. apply upd_tbinding_next.
  - rewrite upd_length. exact P.
  - erewrite map_ext; [exact S|]. intros j. unfold tprio. rewrite nth_error_upd. destruct (Nat.eqb i j); destruct (nth_error (ts_heap ts) j); reflexivity.
  - intros t H. apply In_nth_error in H. destruct H as [j H]. rewrite nth_error_upd in H. destruct (Nat.eqb i j).
    + destruct (nth_error (ts_heap ts) j) as [t'|] eqn:Ej; [|discriminate]. injection H as <-. cbn. apply N. eapply nth_error_In; eauto.
    + apply N. eapply nth_error_In; eauto.
Qed.

(** *** taking out the first tool of a name *)
Lemma tool_equal_name h i j a b : nth_error h i = Some a -> nth_error h j = Some b -> exists z, tool_equal h i j = Ok z /\ (z =? 0) = cstr_eqb (t_name a) (t_name b).
Proof.
  intros A B. unfold tool_equal. rewrite (deref_Ok _ _ _ A), (deref_Ok _ _ _ B). cbn [bind]. eexists. split; [reflexivity|].
  destruct (Z.eqb_spec (libc_strcmp (t_name a) (t_name b)) 0) as [E|E]; symmetry.
  - apply libc_strcmp_eq0 in E. rewrite E. apply cstr_eqb_refl.
  - apply cstr_eqb_neq. intros H. apply E. apply libc_strcmp_eq0. exact H.
Qed.
Lemma remove_walk_first h target tt : nth_error h target = Some tt ->
  forall l1 fuel cur l2, lseg (tnx h) (Some cur) (cur :: l1 ++ target :: l2) -> (length l1 < fuel)%nat ->
  (forall j t, In j l1 -> nth_error h j = Some t -> t_name t <> t_name tt) ->
  exists l0 c, cur :: l1 = l0 ++ [c] /\ remove_walk fuel h cur target = Ok c.
Proof.
  intros Ht. induction l1 as [|n r IH]; intros fuel cur l2 H Hf Hn; destruct fuel as [|f]; try (cbn in Hf; lia).
  - cbn in H. destruct H as (_ & q & H1 & -> & _). exists [], cur. split; [reflexivity|].
    unfold tnx in H1. destruct (nth_error h cur) as [t|] eqn:E; [|discriminate]. injection H1 as H1.
    cbn [remove_walk]. rewrite (deref_Ok _ _ _ E). cbn [bind]. rewrite H1. destruct (tool_equal_name _ _ _ _ _ Ht Ht) as (z & -> & Z0). cbn [bind]. rewrite Z0, cstr_eqb_refl. reflexivity.
  - pose proof H as H0. cbn in H. destruct H as (_ & q & H1 & -> & q2 & H2 & H3).
    destruct (lseg_nth _ _ _ n H0) as [tn En]; [right; left; auto|].
    unfold tnx in H1. destruct (nth_error h cur) as [t|] eqn:E; [|discriminate]. injection H1 as H1.
    cbn [remove_walk]. rewrite (deref_Ok _ _ _ E). cbn [bind]. rewrite H1. destruct (tool_equal_name _ _ _ _ _ En Ht) as (z & -> & Z0). cbn [bind].
    rewrite Z0. assert (Nn : cstr_eqb (t_name tn) (t_name tt) = false) by (apply cstr_eqb_neq; apply (Hn n tn); [left; auto|exact En]). rewrite Nn.
    cbn [negb]. destruct (IH f n l2) as (l0 & c & A & B).
    * cbn. split; [auto|]. exists q2. auto.
    * cbn in Hf. lia.
    * intros j t' J. apply Hn. right. exact J.
    * exists (cur :: l0), c. rewrite A. split; auto.
Qed.
Lemma remove_first ts l1 target l2 tt : lseg (tnx (ts_heap ts)) (ts_head ts) (l1 ++ target :: l2) -> NoDup (l1 ++ target :: l2) -> nth_error (ts_heap ts) target = Some tt ->
  (forall j t, In j l1 -> nth_error (ts_heap ts) j = Some t -> t_name t <> t_name tt) -> (length (l1 ++ target :: l2) <= length (ts_heap ts))%nat ->
  exists ts', remove_tool_from_list ts target = Ok ts' /\ lseg (tnx (ts_heap ts')) (ts_head ts') (l1 ++ l2) /\ map tinfo (ts_heap ts') = map tinfo (ts_heap ts).
Proof.
  intros HL ND Ht NN Hlen. unfold remove_tool_from_list. pose proof (lseg_head _ _ _ HL) as Eh. destruct l1 as [|hd r].
  - cbn in Eh. rewrite Eh. destruct (tool_equal_name _ _ _ _ _ Ht Ht) as (z & -> & Z0). cbn [bind]. rewrite Z0, cstr_eqb_refl, (deref_Ok _ _ _ Ht). cbn [bind].
    exists (mkTS (ts_heap ts) (t_next tt)). split; [auto|]. cbn [ts_heap ts_head app]. split; [|auto].
    cbn in HL. destruct HL as (_ & q & H1 & H2). unfold tnx in H1. rewrite Ht in H1. cbn in H1. injection H1 as ->. exact H2.
  - cbn in Eh. rewrite Eh in *. destruct (lseg_nth _ _ _ hd HL) as [th Hh]; [left; auto|].
    destruct (tool_equal_name _ _ _ _ _ Hh Ht) as (z & -> & Z0). cbn [bind]. rewrite Z0.
    assert (N0 : cstr_eqb (t_name th) (t_name tt) = false) by (apply cstr_eqb_neq; apply (NN hd th); [left; auto|exact Hh]). rewrite N0.
    destruct (remove_walk_first (ts_heap ts) target tt Ht r (S (length (ts_heap ts))) hd l2 HL) as (l0 & c & A & B).
    { cbn in Hlen. rewrite app_length in Hlen. cbn in Hlen. lia. }
    { intros j t J. apply NN. right. exact J. }
    rewrite B. cbn [bind]. rewrite A in *. rewrite <- app_assoc in HL, ND |- *. cbn in HL, ND |- *.
    destruct (lseg_nth _ _ _ c HL) as [tc Hc]; [apply in_elt|]. rewrite (deref_Ok _ _ _ Hc). cbn [bind].
    pose proof HL as HL2. apply lseg_app in HL2. destruct HL2 as (m & _ & HL2). cbn in HL2. destruct HL2 as (_ & qc & Hqc & -> & q2 & Hq2 & _).
    unfold tnx in Hqc, Hq2. rewrite Hc in Hqc. rewrite Ht in Hq2. cbn in Hqc, Hq2. injection Hqc as Hqc. injection Hq2 as Hq2.
    rewrite Hqc. destruct (tool_equal_name _ _ _ _ _ Ht Ht) as (z2 & -> & Z2). cbn [bind]. rewrite Z2, cstr_eqb_refl, (deref_Ok _ _ _ Ht). cbn [bind].
    eexists (mkTS _ _). split; [reflexivity|]. cbn [ts_heap ts_head]. split; [|apply upd_tnext_info].
    eapply (lseg_unlink (tnx (ts_heap ts)) _ (Some hd) l0 c target l2 q2); auto.
    + intros i Hi. rewrite tnx_upd. destruct (Nat.eqb_spec c i); congruence.
    + unfold tnx. rewrite Ht. cbn. congruence.
    + rewrite tnx_upd, Nat.eqb_refl, Hc. cbn. congruence.
Qed.
Lemma find_split {A} (f : A -> bool) l x : find f l = Some x -> exists l1 l2, l = l1 ++ x :: l2 /\ f x = true /\ forall y, In y l1 -> f y = false.
Proof.
  induction l as [|a l IH]; cbn [find]; [discriminate|]. destruct (f a) eqn:E.
  - intros H. injection H as <-. exists [], l. split; [reflexivity|]. split; [exact E|]. intros y [].
  - intros H. destruct (IH H) as (l1 & l2 & -> & F & N). exists (a :: l1), l2. split; [reflexivity|]. split; [exact F|]. intros y [<-|I]; auto.
Qed.
(** setting a priority: the first tool of the name gets it, one is made if there is none *)
Lemma set_prio_existing ps ts name v i : TW ts -> get_tool ts name = Ok (Some i) ->
  exists ts', set_priority_int ps ts name v = Ok ts' /\ TW ts' /\ map tinfo (ts_heap ts') = map tinfo (upd (ts_heap ts) i (set_tprio v)).
Proof.
  intros (l & W) G. pose proof W as (HL & HP & HS & HN). rewrite (get_tool_first ts l name W) in G. injection G as G.
  pose proof (find_split _ _ _ G) as (l1 & l2 & El & Fi & F1). subst l.
  unfold set_priority_int, get_or_create_tool at 1. rewrite (get_tool_first ts _ name W), G. cbn [bind].
  set (ts1 := mkTS (upd (ts_heap ts) i (set_tprio v)) (ts_head ts)).
  destruct (nth_error_lt_Some _ _ (twf_lt _ _ _ W (in_elt i l1 l2))) as [t Ht].
  assert (Nx : forall j, tnx (ts_heap ts1) j = tnx (ts_heap ts) j) by (intros j; unfold tnx, ts1; cbn [ts_heap]; rewrite nth_error_upd; destruct (Nat.eqb i j); destruct (nth_error (ts_heap ts) j); reflexivity).
  assert (Nm : forall j, ToolProofs.tname (ts_heap ts1) j = ToolProofs.tname (ts_heap ts) j) by (intros j; unfold ToolProofs.tname, ts1; cbn [ts_heap]; rewrite nth_error_upd; destruct (Nat.eqb i j); destruct (nth_error (ts_heap ts) j); reflexivity).
  assert (HL1 : lseg (tnx (ts_heap ts1)) (ts_head ts1) (l1 ++ i :: l2)) by (eapply lseg_ext; [|exact HL]; intros; apply Nx).
  assert (LL : (length (l1 ++ i :: l2) <= length (ts_heap ts1))%nat) by (unfold ts1; cbn [ts_heap]; rewrite upd_length, (Permutation_length HP), seq_length; lia).
  assert (G1 : get_tool ts1 name = Ok (Some i)).
  { unfold get_tool. rewrite (get_tool_loop_spec _ name _ _ _ HL1 LL). rewrite <- G. f_equal. clear - Nm. induction (l1 ++ i :: l2) as [|x r IH]; [reflexivity|]. cbn [find]. rewrite Nm, IH. reflexivity. }
  unfold get_or_create_tool. rewrite G1. cbn [bind].
  assert (Ht1 : nth_error (ts_heap ts1) i = Some (set_tprio v t)) by (unfold ts1; cbn [ts_heap]; rewrite nth_error_upd, Nat.eqb_refl, Ht; reflexivity).
  assert (ND := twf_nodup _ _ W).
  destruct (remove_first ts1 l1 i l2 (set_tprio v t) HL1 ND Ht1) as (ts2 & R2 & L2 & I2); [|exact LL|].
  { intros j tj J Hj. apply F1 in J. unfold ToolProofs.tname in Fi. rewrite Ht in Fi. apply cstr_eqb_ok in Fi. rewrite <- Nm in J. unfold ToolProofs.tname in J. rewrite Hj in J. cbn [set_tprio t_name].
    rewrite Fi. intros E. rewrite E, cstr_eqb_refl in J. discriminate. }
  rewrite R2. cbn [bind]. destruct (nth_error_lt_Some (ts_heap ts2) i) as [t2 Ht2].
  { rewrite (tinfo_length _ _ I2). eapply nth_error_Some_lt; eauto. }
  assert (NDs : NoDup (l1 ++ l2) /\ ~ In i (l1 ++ l2)) by (apply NoDup_remove; exact ND). destruct NDs as [ND2 Ni].
  destruct (reorder_spec ts2 (l1 ++ l2) i t2) as (ts3 & l3 & A1 & A2 & A3 & A4 & A5); auto.
  - erewrite map_ext; [|intros; apply (tinfo_tprio _ _ I2)]. erewrite map_ext_in; [eapply sorted_remove; exact HS|].
    intros j J. unfold ts1. cbn [ts_heap]. apply tprio_upd_other. intros ->. contradiction.
  - rewrite (tinfo_length _ _ I2). rewrite app_length in *. cbn [length] in LL. lia.
  - exists ts3. rewrite A1. split; [reflexivity|]. assert (EI : map tinfo (ts_heap ts3) = map tinfo (ts_heap ts1)) by (rewrite A5; exact I2). split; [|exact EI].
    exists l3. split; [exact A2|]. split; [|split].
    + rewrite (tinfo_length _ _ EI). unfold ts1. cbn [ts_heap]. rewrite upd_length. rewrite A3. rewrite Permutation_middle. exact HP.
    + erewrite map_ext; [exact A4|]. intros. apply tinfo_tprio. exact A5.
    + eapply tinfo_parent; [exact EI|]. unfold ts1. cbn [ts_heap]. intros x Hx. apply In_nth_error in Hx. destruct Hx as [j Hx]. rewrite nth_error_upd in Hx.
      destruct (Nat.eqb i j); [destruct (nth_error (ts_heap ts) j) as [y|] eqn:Ej; [|discriminate]; injection Hx as <-; cbn; apply HN; eapply nth_error_In; eauto|apply HN; eapply nth_error_In; eauto].
Qed.
Lemma set_prio_new ps ts name v : 48 <= ps -> TW ts -> get_tool ts name = Ok None ->
  exists ts', set_priority_int ps ts name v = Ok ts' /\ TW ts' /\ map tinfo (ts_heap ts') = map tinfo (ts_heap ts) ++ [(name, v, None, None)].
Proof.
  intros Hps W G. destruct (create_twf ps ts name Hps W) as (ts1 & C & W1 & I1).
  assert (Nn := proj1 (get_tool_none ts name W) G).
  assert (E1 : map t_name (ts_heap ts1) = map t_name (ts_heap ts) ++ [name]).
  { assert (H : forall h, map t_name h = map (fun x : cstr * Z * option nat * option nat => fst (fst (fst x))) (map tinfo h)) by (intros h; rewrite map_map; reflexivity). rewrite !H, I1, map_app. reflexivity. }
  destruct (nth_error_lt_Some (ts_heap ts1) (length (ts_heap ts))) as [t Ht].
  { rewrite <- (map_length tinfo (ts_heap ts1)), I1, app_length, map_length. cbn. lia. }
  assert (Et : tinfo t = (name, -1, None, None)).
  { apply (map_nth_error tinfo) in Ht. rewrite I1 in Ht. rewrite nth_error_app2 in Ht by (rewrite map_length; lia). rewrite map_length, Nat.sub_diag in Ht. cbn [nth_error] in Ht. congruence. }
  assert (G1 : get_tool ts1 name = Ok (Some (length (ts_heap ts)))).
  { apply (get_tool_only ts1 name _ t W1 Ht); [unfold tinfo in Et; congruence|]. intros j t' Hj Ej. destruct (le_lt_dec (length (ts_heap ts)) j) as [L|L].
    - assert (J := nth_error_Some_lt _ _ _ Hj). rewrite <- (map_length tinfo (ts_heap ts1)), I1, app_length, map_length in J. cbn in J. lia.
    - exfalso. apply Nn. apply (map_nth_error t_name) in Hj. rewrite E1, nth_error_app1 in Hj by (rewrite map_length; lia). rewrite <- Ej. eapply nth_error_In; eauto. }
  destruct (set_prio_existing ps ts1 name v _ W1 G1) as (ts2 & S & W2 & I2). exists ts2. split; [|split; [exact W2|]].
  - unfold set_priority_int in *. unfold get_or_create_tool at 1. rewrite G. cbn [bind]. rewrite C. cbn [bind].
    unfold get_or_create_tool at 1 in S. rewrite G1 in S. cbn [bind] in S. exact S.
  - rewrite I2. clear - I1 Ht Et. assert (L : length (ts_heap ts1) = S (length (ts_heap ts))) by (rewrite <- (map_length tinfo (ts_heap ts1)), I1, app_length, map_length; cbn; lia).
    apply nth_error_ext_eq. intros j. rewrite nth_error_map, nth_error_upd. destruct (Nat.eqb_spec (length (ts_heap ts)) j) as [<-|N].
    + rewrite Ht. cbn [option_map]. rewrite nth_error_app2 by (rewrite map_length; lia). rewrite map_length, Nat.sub_diag. cbn. unfold tinfo in *. cbn. congruence.
    + rewrite <- nth_error_map, I1. destruct (le_lt_dec j (length (ts_heap ts))) as [K|K].
      * rewrite !nth_error_app1 by (rewrite map_length; lia). reflexivity.
      * rewrite !(proj2 (nth_error_None _ _)); [reflexivity|rewrite app_length, map_length; cbn; lia|rewrite app_length, map_length; cbn; lia].
Qed.
Lemma set_prio_twf ps ts name v ts' : 48 <= ps -> TW ts -> set_priority_int ps ts name v = Ok ts' -> TW ts'.
Proof.
  intros Hps W E. destruct (get_tool ts name) as [[i|]|f] eqn:G.
  - destruct (set_prio_existing ps ts name v i W G) as (ts2 & E2 & W2 & _). congruence.
  - destruct (set_prio_new ps ts name v Hps W G) as (ts2 & E2 & W2 & _). congruence.
  - unfold set_priority_int, get_or_create_tool in E. rewrite G in E. discriminate.
Qed.
