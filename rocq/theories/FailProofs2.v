(** The law of gotcha_wrap when memory runs out. *)
From Verif Require Import Base ListFacts HashModel ElfModel ToolModel CoreModel SpecCore SpecRun HashProofs HashTrace ToolProofs CoreMaps CoreRel CoreMicro CoreWrap FailModel SpecFail FailProofs.

(** ** nothing depends on the child tables *)
Definition prios_same (ts ts' : tstate) : Prop := forall i, get_priority ts i = get_priority ts' i.
Definition wt (ts : tstate) (st : state) : state := set_b (set_btools ts (s_b st)) st.

Lemma priority_tools bs ts' b : prios_same (b_tools bs) ts' -> binding_priority (set_btools ts' bs) b = binding_priority bs b.
Proof. intros H. unfold binding_priority. cbn. destruct (deref (b_ib bs) b) as [ib|]; cbn [bind]; [|reflexivity]. destruct (deref (b_tables bs) (ib_table ib)) as [bt|]; cbn [bind]; [|reflexivity]. symmetry. apply H. Qed.
Lemma order_loop_tools bs ts' w p : prios_same (b_tools bs) ts' -> forall fuel c, order_loop fuel (set_btools ts' bs) w p c = order_loop fuel bs w p c.
Proof.
  intros H. induction fuel as [|fuel IH]; intros c; cbn [order_loop]; [reflexivity|]. cbn [set_btools b_ib]. destruct (deref (b_ib bs) c) as [x|]; cbn [bind]; [|reflexivity].
  destruct (ib_next x) as [nx|]; [|reflexivity]. rewrite (priority_tools bs ts' nx H). destruct (binding_priority bs nx); cbn [bind]; [|reflexivity]. rewrite IH. reflexivity.
Qed.
Lemma set_wrappee_tools bs ts' h v : set_wrappee (set_btools ts' bs) h v = bind (set_wrappee bs h v) (fun b => Ok (set_btools ts' b)).
Proof. unfold set_wrappee. cbn. destruct (b_handles bs h); reflexivity. Qed.
Lemma set_wrappee_keeps bs h v bs' : set_wrappee bs h v = Ok bs' -> b_tools bs' = b_tools bs.
Proof. unfold set_wrappee. destruct (b_handles bs h); [|discriminate]. intros E. injection E as <-. reflexivity. Qed.
Lemma insert_at_head_tools bs ts' b h : insert_at_head (set_btools ts' bs) b h = bind (insert_at_head bs b h) (fun x => Ok (set_btools ts' x)).
Proof.
  unfold insert_at_head. change (set_ib (upd (b_ib (set_btools ts' bs)) b (set_inext (Some h))) (set_btools ts' bs)) with (set_btools ts' (set_ib (upd (b_ib bs) b (set_inext (Some h))) bs)).
  set (bs1 := set_ib (upd (b_ib bs) b (set_inext (Some h))) bs). change (b_ib (set_btools ts' bs1)) with (b_ib bs1). rewrite !bind_assoc.
  destruct (deref (b_ib bs1) b) as [ib|]; cbn [bind]; [|reflexivity]. rewrite !bind_assoc. destruct (deref (b_ib bs1) h) as [hb|]; cbn [bind]; [|reflexivity].
  rewrite set_wrappee_tools, !bind_assoc. destruct (set_wrappee bs1 _ _) as [bs2|]; cbn [bind]; [|reflexivity]. change (b_fn (set_btools ts' bs2)) with (b_fn bs2). rewrite !bind_assoc.
  destruct (removefrom_hashtable (b_fn bs2) (ub_name (ib_user ib))) as [[t x]|]; cbn [bind]; [|reflexivity]. rewrite !bind_assoc. destruct (addto_hashtable t _ b); reflexivity.
Qed.
Lemma insert_after_tools bs ts' b p : insert_after_pos (set_btools ts' bs) b p = bind (insert_after_pos bs b p) (fun x => Ok (set_btools ts' x)).
Proof.
  unfold insert_after_pos. change (b_ib (set_btools ts' bs)) with (b_ib bs). rewrite !bind_assoc. destruct (deref (b_ib bs) b) as [ib|]; cbn [bind]; [|reflexivity].
  rewrite !bind_assoc. destruct (deref (b_ib bs) p) as [pb|]; cbn [bind]; [|reflexivity]. rewrite set_wrappee_tools, !bind_assoc. destruct (set_wrappee bs _ _) as [bs1|]; cbn [bind]; [|reflexivity].
  rewrite set_wrappee_tools, !bind_assoc. destruct (set_wrappee bs1 _ _) as [bs2|]; cbn [bind]; [|reflexivity]. change (b_ib (set_btools ts' bs2)) with (b_ib bs2). rewrite !bind_assoc.
  destruct (deref (b_ib bs2) p) as [pb2|]; reflexivity.
Qed.
Lemma place_tools bs ts' b n w p : prios_same (b_tools bs) ts' -> place_binding (set_btools ts' bs) b n w p = bind (place_binding bs b n w p) (fun x => Ok (set_btools ts' (fst x), snd x)).
Proof.
  intros H. unfold place_binding. change (b_fn (set_btools ts' bs)) with (b_fn bs). change (b_ib (set_btools ts' bs)) with (b_ib bs). rewrite !bind_assoc.
  destruct (lookup_hashtable (b_fn bs) n) as [[h|]|]; cbn [bind]; [| |reflexivity].
  - rewrite (priority_tools bs ts' h H), !bind_assoc. destruct (binding_priority bs h) as [hp|]; cbn [bind]; [|reflexivity]. destruct (hp <? p).
    + rewrite insert_at_head_tools, !bind_assoc. destruct (insert_at_head bs b h); reflexivity.
    + rewrite (order_loop_tools bs ts' w p H), !bind_assoc. destruct (order_loop _ bs w p h) as [[c|]|]; cbn [bind]; [|reflexivity|reflexivity]. rewrite insert_after_tools, !bind_assoc.
      destruct (insert_after_pos bs b c); reflexivity.
  - rewrite !bind_assoc. destruct (addto_hashtable (b_fn bs) n b); reflexivity.
Qed.
Lemma place_keeps bs b n w p bs' r : place_binding bs b n w p = Ok (bs', r) -> b_tools bs' = b_tools bs.
Proof.
  unfold place_binding. intros E. iba E as o. destruct o as [h|].
  - ib E. destruct (_ <? _).
    + iba E as bs1. injection E as <- _. unfold insert_at_head in B1. ib B1. ib B1. iba B1 as bs2. iba B1 as [t x]. ib B1. injection B1 as <-. apply set_wrappee_keeps in B4. exact B4.
    + iba E as o. destruct o; [|injection E as <- _; reflexivity]. iba E as bs1. injection E as <- _. unfold insert_after_pos in B2. ib B2. ib B2. iba B2 as bs2. iba B2 as bs3. ib B2. injection B2 as <-.
      apply set_wrappee_keeps in B5, B6. cbn. congruence.
  - ib E. injection E as <- _. reflexivity.
Qed.
Lemma prepare_tools e st ts' b : prepare_symbol e (wt ts' st) b = bind (prepare_symbol e st b) (fun x => Ok (wt ts' (fst x), snd x)).
Proof.
  unfold prepare_symbol. change (b_ib (s_b (wt ts' st))) with (b_ib (s_b st)). change (s_p (wt ts' st)) with (s_p st). change (s_l (wt ts' st)) with (s_l st). rewrite !bind_assoc.
  destruct (deref (b_ib (s_b st)) b) as [ib|]; cbn [bind]; [|reflexivity]. rewrite !bind_assoc. destruct (prepare_loop e _ _ _) as [[l r]|]; cbn [bind]; [|reflexivity].
  destruct r; [|reflexivity]. change (s_b (set_l l (wt ts' st))) with (set_btools ts' (s_b (set_l l st))). rewrite set_wrappee_tools, !bind_assoc. destruct (set_wrappee _ _ _); reflexivity.
Qed.
Lemma update_all_tools e t st ts' : update_all_library_gots e t (wt ts' st) = bind (update_all_library_gots e t st) (fun x => Ok (wt ts' x)).
Proof.
  unfold update_all_library_gots. change (b_ib (s_b (wt ts' st))) with (b_ib (s_b st)). change (s_p (wt ts' st)) with (s_p st). change (s_l (wt ts' st)) with (s_l st). rewrite !bind_assoc.
  destruct (update_gots e _ t _ _) as [[l p]|]; reflexivity.
Qed.

(** ** no nested calls *)
Definition quiet (st : state) (n : cstr) : Prop := s_main st = true \/ n <> n_main.
Lemma quiet_main e rec st n : quiet st n -> wrap_main e rec st n = Ok st.
Proof.
  intros H. unfold wrap_main. destruct (libc_strcmp n n_main =? 0) eqn:E; [|reflexivity]. apply Z.eqb_eq, libc_strcmp_eq0 in E. destruct H as [H|H]; [rewrite H; reflexivity|contradiction].
Qed.
Lemma quiet_main_a e rec st n : quiet st n -> wrap_main_a e rec st n = aret st.
Proof.
  intros H. unfold wrap_main_a. destruct (libc_strcmp n n_main =? 0) eqn:E; [|reflexivity]. apply Z.eqb_eq, libc_strcmp_eq0 in E. destruct H as [H|H]; [rewrite H; reflexivity|contradiction].
Qed.
Definition qb (st : state) (b : nat) : Prop := forall ib, nth_error (b_ib (s_b st)) b = Some ib -> quiet st (ub_name (ib_user ib)).
Definition stays (st st' : state) : Prop := s_init st' = s_init st /\ s_main st' = s_main st /\ b_tools (s_b st') = b_tools (s_b st) /\ ib_same (b_ib (s_b st)) (b_ib (s_b st')).
Lemma stays_refl st : stays st st.
Proof. repeat split; eauto using ib_same_refl. Qed.
Lemma stays_trans s1 s2 s3 : stays s1 s2 -> stays s2 s3 -> stays s1 s3.
Proof. intros (A1 & A2 & A3 & A4) (B1 & B2 & B3 & B4). repeat split; try congruence; eapply ib_same_trans; eauto. Qed.
Lemma deref_inv {A} (l : list A) i x : deref l i = Ok x -> nth_error l i = Some x.
Proof. unfold deref. destruct (nth_error l i); congruence. Qed.
Lemma stays_qb st st' b : stays st st' -> qb st b -> qb st' b.
Proof.
  intros (_ & M & _ & L & I) Q ib' H. assert (Lt : (b < length (b_ib (s_b st)))%nat) by (rewrite <- L; eapply nth_error_Some_lt; eauto).
  destruct (nth_error_lt_Some _ _ Lt) as [ib Hb]. destruct (I b ib Hb) as (ib2 & H2 & E & _). assert (ib2 = ib') by congruence. subst. rewrite E. destruct (Q ib Hb) as [Q1|Q1]; [left; congruence|right; auto].
Qed.
Lemma prepare_stays e st b st' f : prepare_symbol e st b = Ok (st', f) -> stays st st'.
Proof.
  unfold prepare_symbol. intros E. ib E. iba E as [l r]. destruct r; [|injection E as <- _; split; [reflexivity|split; [reflexivity|split; [reflexivity|apply ib_same_refl]]]]. iba E as bs. injection E as <- _. pose proof (set_wrappee_keeps _ _ _ _ B1) as K.
  apply set_wrappee_reg in B1. repeat split; [exact K| |]; apply B1.
Qed.
Lemma wrap_one_stays e rec na b st pr st' pr' : qb st b -> wrap_one e rec na b (st, pr) = Ok (st', pr') -> stays st st'.
Proof.
  intros Q E. unfold wrap_one in E. iba E as [st1 r]. assert (S1 : stays st st1).
  { unfold rewrite_wrapper_orders in B. iba B as ib. ib B. rewrite quiet_main in B by (apply Q, deref_inv; assumption). cbn [bind] in B. iba B as [bs r']. injection B as <- _.
    pose proof (place_keeps _ _ _ _ _ _ _ B2) as K. apply place_reg in B2. repeat split; [exact K| |]; apply B2. }
  ib E. iba E as [st2 pr2]. assert (S2 : stays st1 st2).
  { destruct (need_lookup r); [|injection B1 as <- _; apply stays_refl]. iba B1 as [st3 f]. apply prepare_stays in B2. destruct f; [injection B1 as <- _; exact B2|].
    ib B1. injection B1 as <- _. exact B2. }
  destruct (need_binding r); [|injection E as <- _; eapply stays_trans; eauto]. ib E. ib E. injection E as <- _. eapply stays_trans; eauto.
Qed.

Lemma wrap_loop_quiet e rec rec' na : forall n b st pr, (forall k, (b <= k < b + n)%nat -> qb st k) -> refines (wrap_loop_a e rec na n b (st, pr)) (wrap_loop e rec' na n b (st, pr)).
Proof.
  induction n as [|n IH]; intros b st pr Q; cbn [wrap_loop_a wrap_loop]; [apply refines_ret|]. apply refines_bind.
  - apply (wrap_one_R (@refines) (fun A m o H => H) (@refines_bind)). intros ib Ei. apply deref_inv in Ei. rewrite quiet_main, quiet_main_a by (apply (Q b); [lia|exact Ei]). apply refines_ret.
  - intros [st1 pr1] E. apply IH. intros k Hk. eapply stays_qb; [eapply wrap_one_stays; [|exact E]; apply Q; lia|]. apply Q. lia.
Qed.

Lemma wrap_one_tools e rec na b st pr ts' : qb st b -> prios_same (b_tools (s_b st)) ts' ->
  wrap_one e rec na b (wt ts' st, pr) = bind (wrap_one e rec na b (st, pr)) (fun x => Ok (wt ts' (fst x), snd x)).
Proof.
  intros Q H. unfold wrap_one, rewrite_wrapper_orders. change (b_ib (s_b (wt ts' st))) with (b_ib (s_b st)). rewrite !bind_assoc. destruct (deref (b_ib (s_b st)) b) as [ib|] eqn:Ei; cbn [bind]; [|reflexivity].
  change (s_b (wt ts' st)) with (set_btools ts' (s_b st)) at 1. rewrite (priority_tools (s_b st) ts' b H), !bind_assoc. destruct (binding_priority (s_b st) b) as [ip|]; cbn [bind]; [|reflexivity].
  pose proof (Q ib (deref_inv _ _ _ Ei)) as Qi. rewrite (quiet_main e rec (wt ts' st)) by exact Qi. rewrite (quiet_main e rec st) by exact Qi. cbn [bind].
  change (s_b (wt ts' st)) with (set_btools ts' (s_b st)). rewrite (place_tools _ _ _ _ _ _ H), !bind_assoc. destruct (place_binding (s_b st) b _ _ ip) as [[bs r]|] eqn:Ep; cbn [bind fst snd]; [|reflexivity].
  change (set_b (set_btools ts' bs) (wt ts' st)) with (wt ts' (set_b bs st)). set (st1 := set_b bs st). change (b_ib (s_b (wt ts' st1))) with (b_ib (s_b st1)). rewrite !bind_assoc.
  destruct (deref (b_ib (s_b st1)) b) as [ib1|]; cbn [bind]; [|reflexivity]. rewrite !bind_assoc.
  assert (X : (if need_lookup r then do ' (st2, found) <- prepare_symbol e (wt ts' st1) b;
        if (found : bool) then Ok (st2, pr) else do t <- addto_hashtable (b_nf (s_b st2)) (ub_name (ib_user ib1)) b; Ok (set_b (set_nf t (s_b st2)) st2, mkPr (pr_not_found pr + 1) (pr_new pr)) else Ok (wt ts' st1, pr)) =
     bind (if need_lookup r then do ' (st2, found) <- prepare_symbol e st1 b;
        if (found : bool) then Ok (st2, pr) else do t <- addto_hashtable (b_nf (s_b st2)) (ub_name (ib_user ib1)) b; Ok (set_b (set_nf t (s_b st2)) st2, mkPr (pr_not_found pr + 1) (pr_new pr)) else Ok (st1, pr))
      (fun x => Ok (wt ts' (fst x), snd x))).
  { destruct (need_lookup r); [|reflexivity]. rewrite prepare_tools, !bind_assoc. destruct (prepare_symbol e st1 b) as [[st2 f]|]; cbn [bind fst snd]; [|reflexivity]. destruct f; [reflexivity|].
    change (b_nf (s_b (wt ts' st2))) with (b_nf (s_b st2)). rewrite !bind_assoc. destruct (addto_hashtable (b_nf (s_b st2)) _ b); reflexivity. }
  rewrite X, !bind_assoc. clear X. destruct (if need_lookup r then _ else _) as [[st2 pr2]|]; cbn [bind fst snd]; [|reflexivity]. destruct (need_binding r); [|reflexivity]. rewrite !bind_assoc.
  destruct (match pr_new pr2 with Some t => _ | None => _ end); cbn [bind]; [|reflexivity]. rewrite !bind_assoc. destruct (addto_hashtable _ _ b); reflexivity.
Qed.
Lemma wrap_loop_tools e rec na ts' : forall n b st pr, (forall k, (b <= k < b + n)%nat -> qb st k) -> prios_same (b_tools (s_b st)) ts' ->
  wrap_loop e rec na n b (wt ts' st, pr) = bind (wrap_loop e rec na n b (st, pr)) (fun x => Ok (wt ts' (fst x), snd x)).
Proof.
  induction n as [|n IH]; intros b st pr Q H; cbn [wrap_loop]; [reflexivity|]. rewrite wrap_one_tools by (auto; apply Q; lia). rewrite !bind_assoc.
  destruct (wrap_one e rec na b (st, pr)) as [[st1 pr1]|] eqn:E; cbn [bind fst snd]; [|reflexivity]. pose proof (wrap_one_stays _ _ _ _ _ _ _ _ (Q b ltac:(lia)) E) as S.
  apply IH.
  - intros k Hk. eapply stays_qb; [exact S|]. apply Q. lia.
  - destruct S as (_ & _ & -> & _). exact H.
Qed.

(** ** the same tools but for the child tables *)
Definition ts_alike (ts ts' : tstate) : Prop := ts_head ts' = ts_head ts /\ Forall2 tool_alike (ts_heap ts) (ts_heap ts').
Lemma tool_alike_refl t : tool_alike t t.
Proof. repeat split. Qed.
Lemma Forall2_refl_alike h : Forall2 tool_alike h h.
Proof. induction h; constructor; auto using tool_alike_refl. Qed.
Lemma ts_alike_refl ts : ts_alike ts ts.
Proof. split; [auto|apply Forall2_refl_alike]. Qed.
Lemma alike_deref h h' i : Forall2 tool_alike h h' -> match deref h i, deref h' i with Ok t, Ok t' => tool_alike t t' | Fault f, Fault g => f = g | _, _ => False end.
Proof.
  intros F. unfold deref. revert i. induction F as [|t t' h h' A F IH]; intros [|i]; cbn [nth_error]; [reflexivity|reflexivity|exact A|apply IH].
Qed.
Lemma alike_upd h h' i f : (forall t t', tool_alike t t' -> tool_alike (f t) (f t')) -> Forall2 tool_alike h h' -> Forall2 tool_alike (upd h i f) (upd h' i f).
Proof. intros Hf F. revert i. induction F as [|t t' h h' A F IH]; intros [|i]; cbn [upd]; constructor; auto. Qed.
Lemma alike_next v t t' : tool_alike t t' -> tool_alike (set_tnext v t) (set_tnext v t').
Proof. intros (A & B & C & D & E). repeat split; auto. Qed.
Lemma alike_tbinding v t t' : tool_alike t t' -> tool_alike (set_tbinding v t) (set_tbinding v t').
Proof. intros (A & B & C & D & E). repeat split; auto. Qed.
Lemma alike_prios ts ts' : ts_alike ts ts' -> prios_same ts ts'.
Proof.
  intros (_ & F) i. unfold get_priority. pose proof (alike_deref _ _ i F) as A. destruct (deref (ts_heap ts) i), (deref (ts_heap ts') i); try contradiction; cbn [bind]; [|congruence].
  destruct A as (_ & _ & _ & -> & _). reflexivity.
Qed.
Lemma reorder_walk_alike h h' p : Forall2 tool_alike h h' -> forall fuel c, reorder_walk fuel h' c p = reorder_walk fuel h c p.
Proof.
  intros F. induction fuel as [|fuel IH]; intros c; cbn [reorder_walk]; [reflexivity|]. pose proof (alike_deref _ _ c F) as A. destruct (deref h c) as [t|], (deref h' c) as [t'|]; try contradiction; cbn [bind]; [|congruence].
  destruct A as (_ & _ & -> & _). destruct (t_next t) as [nx|]; [|reflexivity]. pose proof (alike_deref _ _ nx F) as A. destruct (deref h nx) as [n|], (deref h' nx) as [n'|]; try contradiction; cbn [bind]; [|congruence].
  destruct A as (_ & _ & _ & -> & _). rewrite IH. reflexivity.
Qed.
Lemma reorder_alike ts ts' i r : ts_alike ts ts' -> reorder_tool ts i = Ok r -> exists r', reorder_tool ts' i = Ok r' /\ ts_alike r r'.
Proof.
  intros (Hd & F) E. unfold reorder_tool in *. pose proof (alike_deref _ _ i F) as A. iba E as nt. destruct (deref (ts_heap ts') i) as [nt'|]; [|contradiction]. cbn [bind]. destruct A as (_ & _ & _ & Ap & _).
  rewrite Ap, Hd. destruct (ts_head ts) as [hd|].
  - pose proof (alike_deref _ _ hd F) as A. iba E as t. destruct (deref (ts_heap ts') hd) as [t'|]; [|contradiction]. cbn [bind]. destruct A as (_ & _ & _ & -> & _). destruct (t_prio t >=? t_prio nt).
    + injection E as <-. eexists. split; [reflexivity|]. split; [reflexivity|]. cbn [ts_heap]. apply alike_upd; [intros; apply alike_next; auto|exact F].
    + assert (L : length (ts_heap ts') = length (ts_heap ts)) by (symmetry; eapply Forall2_length; eauto). rewrite L, (reorder_walk_alike _ _ _ F).
      iba E as cur. cbn [bind]. pose proof (alike_deref _ _ cur F) as A. iba E as c. destruct (deref (ts_heap ts') cur) as [c'|]; [|contradiction]. cbn [bind]. destruct A as (_ & _ & -> & _). injection E as <-.
      eexists. split; [reflexivity|]. split; [reflexivity|]. cbn [ts_heap]. apply alike_upd; [intros; apply alike_next; auto|]. apply alike_upd; [intros; apply alike_next; auto|exact F].
  - injection E as <-. eexists. split; [reflexivity|]. split; [reflexivity|]. cbn [ts_heap]. apply alike_upd; [intros; apply alike_next; auto|exact F].
Qed.

(** ** add_binding_to_tool *)
Lemma fill_bindings_eq tbl ubs : forall ibs hs, fst (fill_bindings tbl ubs ibs hs) = ibs ++ map (fun u => mkIB tbl u None Uninit) ubs.
Proof.
  induction ubs as [|u r IH]; intros ibs hs; cbn [fill_bindings map]; [rewrite app_nil_r; reflexivity|]. rewrite IH, <- app_assoc. reflexivity.
Qed.
Lemma fill_bindings_other tbl ubs : forall ibs hs h, ~ In h (map ub_handle ubs) -> snd (fill_bindings tbl ubs ibs hs) h = hs h.
Proof.
  induction ubs as [|u r IH]; intros ibs hs h N; cbn [fill_bindings]; [reflexivity|]. rewrite IH by (intros I; apply N; right; exact I). unfold fupd. destruct (Z.eqb_spec h (ub_handle u)) as [->|]; [|reflexivity].
  exfalso. apply N. left. reflexivity.
Qed.
Lemma fill_bindings_own tbl ubs : forall ibs hs h, In h (map ub_handle ubs) ->
  exists k, (k < length ubs)%nat /\ snd (fill_bindings tbl ubs ibs hs) h = Some (length ibs + k)%nat.
Proof.
  induction ubs as [|u r IH]; intros ibs hs h I; [destruct I|]. cbn [fill_bindings]. destruct (in_dec Z.eq_dec h (map ub_handle r)) as [I2|N].
  - destruct (IH (ibs ++ [mkIB tbl u None Uninit]) (fupd hs (ub_handle u) (Some (length ibs))) h I2) as (k & L & E). exists (S k). split; [cbn; lia|]. rewrite E, app_length. cbn [length]. f_equal. lia.
  - destruct I as [<-|I]; [|contradiction]. rewrite fill_bindings_other by exact N. exists O. split; [cbn; lia|]. unfold fupd. rewrite Z.eqb_refl. f_equal. lia.
Qed.

Lemma malloc_eq {A} (k : bool -> amon A) al : abind malloc k al = match al with [] => k true [] | a :: r => k a r end.
Proof. destruct al; reflexivity. Qed.
Lemma unchecked_eq {A} (k : unit -> amon A) al : abind malloc_unchecked k al = match al with [] => k tt [] | true :: r => k tt r | false :: _ => Fault NullDeref end.
Proof. destruct al as [|[] r]; reflexivity. Qed.
Lemma create_a_eq {K D A} ps n (hf : K -> Z) cmp (t : htable K D) (k : option (htable K D) -> amon A) al : create_hashtable ps n hf cmp = Ok t ->
  abind (create_hashtable_a ps n hf cmp) k al = match al with [] => k (Some t) [] | true :: r => k (Some t) r | false :: r => k None r end.
Proof. intros E. unfold create_hashtable_a, abind, alift. rewrite E. cbn [bind]. destruct al as [|[] r]; reflexivity. Qed.

Lemma add_a_law e bs tool ubs bs1 tbl al : add_binding_to_tool e bs tool ubs = Ok (bs1, tbl) ->
  (In false al /\ ~ short ubs al /\ add_binding_to_tool_a e bs tool ubs al = Fault NullDeref) \/
  (short ubs al /\ exists al', add_binding_to_tool_a e bs tool ubs al =
     Ok ((set_handles (snd (fill_bindings (length (b_tables bs)) ubs (b_ib bs) (b_handles bs))) (set_ib (fst (fill_bindings (length (b_tables bs)) ubs (b_ib bs) (b_handles bs))) bs), None), al')) \/
  (~ short ubs al /\ exists u al', al = u ++ al' /\ add_binding_to_tool_a e bs tool ubs al = Ok ((bs1, Some tbl), al')).
Proof.
  intros E. unfold add_binding_to_tool in E. unfold add_binding_to_tool_a. destruct (fill_bindings (length (b_tables bs)) ubs (b_ib bs) (b_handles bs)) as [ibs hs]. cbn [fst snd].
  destruct (create_hashtable (e_ps e) (Z.of_nat (length ubs) * 2) strhash libc_strcmp) as [h|] eqn:B; cbn [bind] in E; [|discriminate E].
  pose (tail := fun h => ado h0 <- fill_hash_a h ubs (length (b_ib bs)); ado t0 <- alift (deref (ts_heap (b_tools bs)) tool);
        aret (mkBS (mkTS (upd (ts_heap (b_tools bs)) tool (set_tbinding (Some (length (b_tables bs))))) (ts_head (b_tools bs)))
          (b_tables bs ++ [mkBT tool (length (b_ib bs)) (Z.of_nat (length ubs)) h0 (t_binding t0) (b_all bs)]) (Some (length (b_tables bs))) ibs hs (b_fn bs) (b_nf bs), Some (length (b_tables bs)))).
  assert (T : refines (tail h) (Ok (bs1, Some tbl))).
  { assert (X : refines (tail h) (bind (fill_hash h ubs (length (b_ib bs))) (fun h0 => bind (deref (ts_heap (b_tools bs)) tool) (fun t0 =>
        Ok (mkBS (mkTS (upd (ts_heap (b_tools bs)) tool (set_tbinding (Some (length (b_tables bs))))) (ts_head (b_tools bs)))
          (b_tables bs ++ [mkBT tool (length (b_ib bs)) (Z.of_nat (length ubs)) h0 (t_binding t0) (b_all bs)]) (Some (length (b_tables bs))) ibs hs (b_fn bs) (b_nf bs), Some (length (b_tables bs))))))).
    { apply refines_bind; [apply fill_hash_refines|]. intros h0 _. apply refines_bind; [apply refines_lift|]. intros t0 _. apply refines_ret. }
    destruct (fill_hash h ubs (length (b_ib bs))); cbn [bind] in *; [|discriminate E]. destruct (deref (ts_heap (b_tools bs)) tool); cbn [bind] in *; [|discriminate E]. injection E as <- <-. exact X. }
  pose (mid := fun a1 : bool => if negb a1 && negb (match ubs with [] => true | _ => false end) then alift (Fault NullDeref) else
     ado h <- create_hashtable_a (e_ps e) (Z.of_nat (length ubs) * 2) strhash libc_strcmp;
     match h with None => aret (set_handles hs (set_ib ibs bs), None) | Some h => tail h end).
  change ((In false al /\ ~ short ubs al /\ abind malloc_unchecked (fun _ => abind malloc mid) al = Fault NullDeref) \/
    (short ubs al /\ exists al', abind malloc_unchecked (fun _ => abind malloc mid) al = Ok ((set_handles hs (set_ib ibs bs), None), al')) \/
    (~ short ubs al /\ exists u al', al = u ++ al' /\ abind malloc_unchecked (fun _ => abind malloc mid) al = Ok ((bs1, Some tbl), al'))).
  assert (T2 : forall pre l, ~ short ubs (pre ++ l) -> (In false (pre ++ l) /\ ~ short ubs (pre ++ l) /\ tail h l = Fault NullDeref) \/ (~ short ubs (pre ++ l) /\ exists u al', pre ++ l = u ++ al' /\ tail h l = Ok ((bs1, Some tbl), al'))).
  { intros pre l N. destruct (T l) as [(I & X)|(u & al' & -> & _ & X)]; [left; split; [apply in_or_app; auto|auto]|right]. split; [exact N|]. exists (pre ++ u), al'. split; [apply app_assoc|exact X]. }
  clearbody tail. rewrite unchecked_eq. destruct al as [|[] al].
  - rewrite malloc_eq. unfold mid. cbn [negb andb]. rewrite (create_a_eq _ _ _ _ h _ _ B). destruct (T2 [] []) as [X|X]; auto. intros (a & r & X & _). discriminate X.
  - rewrite malloc_eq. destruct al as [|a1 al].
    + unfold mid. cbn [negb andb]. rewrite (create_a_eq _ _ _ _ h _ _ B). destruct (T2 [true] []) as [X|X]; auto. intros (a & r & X & _). discriminate X.
    + unfold mid. destruct (negb a1 && negb match ubs with [] => true | _ => false end) eqn:C.
      * left. destruct a1; [discriminate C|]. split; [right; left; reflexivity|]. split; [|reflexivity]. intros (a & r & X & Y). injection X as <- _. destruct Y as [Y|Y]; [discriminate Y|subst; discriminate C].
      * rewrite (create_a_eq _ _ _ _ h _ _ B). destruct al as [|[] al].
        -- destruct (T2 [true; a1] []) as [X|X]; auto. intros (a & r & X & _). discriminate X.
        -- destruct (T2 [true; a1; true] al) as [X|X]; auto. intros (a & r & X & _). discriminate X.
        -- right. left. split; [|exists al; reflexivity]. exists a1, al. split; [reflexivity|]. destruct a1; [left; reflexivity|right]. destruct ubs; [reflexivity|discriminate C].
  - left. split; [left; reflexivity|]. split; [intros (a & r & X & _); discriminate X|reflexivity].
Qed.

Lemma add_alike e bs ts' tool ubs bs1 tbl : add_binding_to_tool e bs tool ubs = Ok (bs1, tbl) -> ts_alike (b_tools bs) ts' ->
  exists ts1, add_binding_to_tool e (set_btools ts' bs) tool ubs = Ok (set_btools ts1 bs1, tbl) /\ ts_alike (b_tools bs1) ts1.
Proof.
  intros E (Hd & F). unfold add_binding_to_tool in *. cbn [set_btools b_tables b_ib b_handles b_tools b_all b_fn b_nf] in *. destruct (fill_bindings (length (b_tables bs)) ubs (b_ib bs) (b_handles bs)) as [ibs hs].
  destruct (create_hashtable (e_ps e) (Z.of_nat (length ubs) * 2) strhash libc_strcmp) as [h|]; cbn [bind] in *; [|discriminate E].
  destruct (fill_hash h ubs (length (b_ib bs))) as [h0|]; cbn [bind] in *; [|discriminate E]. pose proof (alike_deref _ _ tool F) as A. destruct (deref (ts_heap (b_tools bs)) tool) as [t|]; cbn [bind] in *; [|discriminate E].
  destruct (deref (ts_heap ts') tool) as [t'|]; [|contradiction]. cbn [bind]. destruct A as (_ & -> & _). injection E as <- <-. eexists. split; [reflexivity|]. split; [exact Hd|]. cbn [b_tools ts_heap].
  apply alike_upd; [intros; apply alike_tbinding; auto|exact F].
Qed.
Lemma add_shape e bs tool ubs bs1 tbl : add_binding_to_tool e bs tool ubs = Ok (bs1, tbl) ->
  exists bt, deref (b_tables bs1) tbl = Ok bt /\ bt_start bt = length (b_ib bs) /\ b_ib bs1 = b_ib bs ++ map (fun u => mkIB (length (b_tables bs)) u None Uninit) ubs.
Proof.
  intros E. unfold add_binding_to_tool in E. pose proof (fill_bindings_eq (length (b_tables bs)) ubs (b_ib bs) (b_handles bs)) as Fe. destruct (fill_bindings (length (b_tables bs)) ubs (b_ib bs) (b_handles bs)) as [ibs hs].
  cbn [fst] in Fe. subst ibs. ib E. ib E. ib E. injection E as <- <-. eexists. split; [unfold deref; cbn [b_tables]; rewrite nth_error_app2, Nat.sub_diag by lia; reflexivity|]. split; reflexivity.
Qed.

Lemma create_tool_law ps ts n ts1 i al : create_tool ps ts n = Ok (ts1, i) ->
  (exists r, al = false :: r /\ create_tool_a ps ts n al = Ok ((ts, None), r)) \/
  (hd true al = true /\ exists ts', ts_alike ts1 ts' /\ create_tool_a ps ts n al = Ok ((ts', Some i), tl (tl al))).
Proof.
  intros E. unfold create_tool in E. unfold create_tool_a. rewrite malloc_eq. iba E as ch. iba E as ts2. injection E as <- <-. rename B into C, B0 into R.
  assert (S : forall ch' (al' : list bool), exists ts', ts_alike ts2 ts' /\
     (ado ts'0 <- alift (reorder_tool (mkTS (ts_heap ts ++ [mkTool n None None default_priority ch' None]) (ts_head ts)) (length (ts_heap ts))); aret (ts'0, Some (length (ts_heap ts)))) al' = Ok ((ts', Some (length (ts_heap ts))), al')).
  { intros ch' al'. destruct (reorder_alike (mkTS (ts_heap ts ++ [mkTool n None None default_priority ch None]) (ts_head ts)) (mkTS (ts_heap ts ++ [mkTool n None None default_priority ch' None]) (ts_head ts)) (length (ts_heap ts)) ts2) as (r' & R' & A).
    { split; [reflexivity|]. cbn [ts_heap]. apply Forall2_app; [apply Forall2_refl_alike|]. constructor; [repeat split|constructor]. }
    { exact R. }
    exists r'. split; [exact A|]. unfold abind, alift. rewrite R'. reflexivity. }
  destruct al as [|[] al]; [right| |left].
  - split; [reflexivity|]. cbn [negb]. destruct (S ch []) as (ts' & A & X). exists ts'. split; [exact A|]. rewrite (create_a_eq _ _ _ _ ch _ _ C). exact X.
  - right. split; [reflexivity|]. cbn [negb tl]. destruct al as [|[] al].
    + destruct (S ch []) as (ts' & A & X). exists ts'. split; [exact A|]. rewrite (create_a_eq _ _ _ _ ch _ _ C). exact X.
    + destruct (S ch al) as (ts' & A & X). exists ts'. split; [exact A|]. rewrite (create_a_eq _ _ _ _ ch _ _ C). exact X.
    + destruct (S zero_table al) as (ts' & A & X). exists ts'. split; [exact A|]. rewrite (create_a_eq _ _ _ _ ch _ _ C). exact X.
  - exists al. split; reflexivity.
Qed.

(** gotcha_wrap returns GOTCHA_INTERNAL *)
Definition internal (ts : tstate) (n : cstr) (ubs : list ubind) (al : list bool) : Prop :=
  match get_tool ts n with Ok (Some _) => short ubs al | Ok None => hd true al = false \/ short ubs (tl (tl al)) | _ => False end.
Lemma short_false ubs al : short ubs al -> In false al.
Proof. intros (a & r & -> & _). cbn. auto. Qed.
Lemma in_tl {A} (x : A) l : In x (tl l) -> In x l.
Proof. destruct l; cbn; auto. Qed.
Lemma internal_false ts n ubs al : internal ts n ubs al -> In false al.
Proof.
  unfold internal. destruct (get_tool ts n) as [[|]|]; [apply short_false| |tauto]. intros [H|H]; [destruct al as [|[] al]; try discriminate H; left; reflexivity|]. apply short_false, in_tl, in_tl in H. exact H.
Qed.

Lemma null_handles_own ubs h : In h (map ub_handle ubs) -> forall hs, null_handles ubs hs h = None.
Proof.
  unfold null_handles. induction ubs as [|u r IH]; intros I hs; [destruct I|]. cbn [fold_left]. destruct (in_dec Z.eq_dec h (map ub_handle r)) as [I2|N]; [apply IH, I2|].
  destruct I as [<-|I]; [|contradiction]. fold (null_handles r (fupd hs (ub_handle u) None)). rewrite null_handles_other by exact N. unfold fupd. rewrite Z.eqb_refl. reflexivity.
Qed.
Lemma not_installed_short st ts g tbl ubs :
  not_installed st (set_b (let hs := null_handles ubs (b_handles (s_b st)) in
     set_handles (snd (fill_bindings tbl ubs (b_ib (s_b st)) hs)) (set_ib (fst (fill_bindings tbl ubs (b_ib (s_b st)) hs)) (set_btools ts (set_handles hs (s_b st)))))
     (set_l (mkLS (l_table (s_l st)) (l_heap (s_l st)) (l_list (s_l st)) g) st)) ubs.
Proof.
  cbv zeta. rewrite fill_bindings_eq. constructor; cbn; auto.
  - eexists. reflexivity.
  - intros h N. rewrite fill_bindings_other, null_handles_other by exact N. reflexivity.
  - intros u I. right. destruct (fill_bindings_own tbl ubs (b_ib (s_b st)) (null_handles ubs (b_handles (s_b st))) (ub_handle u) (in_map ub_handle _ _ I)) as (k & L & ->).
    destruct (nth_error_lt_Some ubs k L) as [v Hv]. exists (length (b_ib (s_b st)) + k)%nat, (mkIB tbl v None Uninit). split; [reflexivity|]. split; [lia|]. split; [|reflexivity].
    rewrite nth_error_app2 by lia. replace (length (b_ib (s_b st)) + k - length (b_ib (s_b st)))%nat with k by lia. rewrite (map_nth_error _ _ _ Hv). reflexivity.
Qed.
Lemma not_installed_early st ts ubs :
  not_installed st (set_b (set_btools ts (set_handles (null_handles ubs (b_handles (s_b st))) (s_b st))) st) ubs.
Proof.
  constructor; cbn; auto.
  - exists []. rewrite app_nil_r. reflexivity.
  - intros h N. apply null_handles_other, N.
  - intros u I. left. apply null_handles_own, in_map, I.
Qed.

Lemma wt_alike st ts : ts_alike (b_tools (s_b st)) ts -> alike st (wt ts st).
Proof. intros (A & B). exists ts. repeat split; auto. Qed.

(** ** from the bindings on *)
Definition after_add (e : env) (rec : wrap_fun) (na : Z) (n : nat) (st : state) (bs : bstate) (tbl : nat) : outcome (state * Z) :=
  do bt <- deref (b_tables bs) tbl;
  do ' (st, pr) <- wrap_loop e rec na n (bt_start bt) (set_b bs st, mkPr 0 None);
  do st <- (match pr_new pr with Some t => update_all_library_gots e t st | None => Ok st end);
  Ok (st, if negb (pr_not_found pr =? 0) then GOTCHA_FUNCTION_NOT_FOUND else GOTCHA_SUCCESS).
Definition after_add_a (e : env) (rec : wrap_fun_a) (na : Z) (n : nat) (st : state) (bs : bstate) (tbl : nat) : amon (state * Z) :=
  ado bt <- alift (deref (b_tables bs) tbl);
  ado ' (st, pr) <- wrap_loop_a e rec na n (bt_start bt) (set_b bs st, mkPr 0 None);
  ado st <- (match pr_new pr with Some t => update_all_library_gots_a e t st | None => aret st end);
  aret (st, if negb (pr_not_found pr =? 0) then GOTCHA_FUNCTION_NOT_FOUND else GOTCHA_SUCCESS).
Definition qbs (st : state) (bs : bstate) (tbl n : nat) : Prop :=
  forall bt, deref (b_tables bs) tbl = Ok bt -> forall k, (bt_start bt <= k < bt_start bt + n)%nat -> qb (set_b bs st) k.
Lemma after_refines e rec rec' na n st bs tbl : qbs st bs tbl n -> refines (after_add_a e rec na n st bs tbl) (after_add e rec' na n st bs tbl).
Proof.
  intros Q. unfold after_add_a, after_add. apply refines_bind; [apply refines_lift|]. intros bt Eb. apply refines_bind; [apply wrap_loop_quiet, Q, Eb|]. intros [st1 pr] _.
  apply refines_bind; [|intros ? _; apply refines_ret]. destruct (pr_new pr); [apply update_all_refines|apply refines_ret].
Qed.
Lemma loop_keeps e rec na : forall n b st pr st' pr', (forall k, (b <= k < b + n)%nat -> qb st k) -> wrap_loop e rec na n b (st, pr) = Ok (st', pr') -> stays st st'.
Proof.
  induction n as [|n IH]; intros b st pr st' pr' Q E; cbn [wrap_loop] in E; [injection E as <- <-; apply stays_refl|]. iba E as [st1 pr1].
  pose proof (wrap_one_stays _ _ _ _ _ _ _ _ (Q b ltac:(lia)) B) as S. eapply stays_trans; [exact S|]. eapply IH; [|exact E]. intros k Hk. eapply stays_qb; [exact S|]. apply Q. lia.
Qed.
Lemma after_tools e rec na n st bs tbl ts st'' c : qbs st bs tbl n -> ts_alike (b_tools bs) ts -> after_add e rec na n st bs tbl = Ok (st'', c) ->
  after_add e rec na n st (set_btools ts bs) tbl = Ok (wt ts st'', c) /\ ts_alike (b_tools (s_b st'')) ts.
Proof.
  intros Q A E. unfold after_add in *. change (b_tables (set_btools ts bs)) with (b_tables bs). iba E as bt. cbn [bind]. change (set_b (set_btools ts bs) st) with (wt ts (set_b bs st)).
  rewrite (wrap_loop_tools e rec na ts n (bt_start bt) (set_b bs st) _ (Q bt B)) by (apply alike_prios, A). iba E as [st1 pr]. pose proof (loop_keeps _ _ _ _ _ _ _ _ _ (Q bt B) B0) as (_ & _ & K & _). cbn [bind fst snd].
  iba E as st2. injection E as <- <-. destruct (pr_new pr) as [t|].
  - rewrite update_all_tools. unfold update_all_library_gots in *. iba B1 as [l p]. injection B1 as <-. cbn [bind]. split; [reflexivity|]. cbn. rewrite K. exact A.
  - injection B1 as <-. cbn [bind]. split; [reflexivity|]. rewrite K. exact A.
Qed.

Lemma abind_ok {A B} (m : amon A) (k : A -> amon B) al a al' : m al = Ok (a, al') -> abind m k al = k a al'.
Proof. intros E. unfold abind. rewrite E. reflexivity. Qed.
Lemma abind_fault {A B} (m : amon A) (k : A -> amon B) al f : m al = Fault f -> abind m k al = Fault f.
Proof. intros E. unfold abind. rewrite E. reflexivity. Qed.

Lemma wrap_tool_a_law e rec rec' st ubs tool st'' c al : (forall u, In u ubs -> quiet st (ub_name u)) -> wrap_tool e rec' st ubs tool = Ok (st'', c) ->
  let int := internal (b_tools (s_b st)) (match tool with Some n => n | None => n_unspecified end) ubs al in
  match wrap_tool_a e rec st ubs tool al with
  | Fault f => f = NullDeref /\ In false al /\ ~ int
  | Ok ((st', c'), _) => (int /\ c' = GOTCHA_INTERNAL /\ not_installed st st' ubs) \/ (~ int /\ c' = c /\ alike st'' st')
  end.
Proof.
  intros Q E int. unfold int, internal. clear int. unfold wrap_tool in E. unfold wrap_tool_a.
  change (b_tools (s_b (set_b (set_handles (null_handles ubs (b_handles (s_b st))) (s_b st)) st))) with (b_tools (s_b st)) in *.
  set (n := match tool with Some n => n | None => n_unspecified end) in *. iba E as [ts1 i].
  set (hs := null_handles ubs (b_handles (s_b st))) in *.
  set (st1 := fun ts => let st := set_b (set_btools ts (set_handles hs (s_b st))) st in set_l (mkLS (l_table (s_l st)) (l_heap (s_l st)) (l_list (s_l st)) (u32 (l_gen (s_l st) + 1))) st).
  assert (E2 : bind (add_binding_to_tool e (s_b (st1 ts1)) i ubs) (fun x => after_add e rec' (Z.of_nat (length ubs)) (length ubs) (st1 ts1) (fst x) (snd x)) = Ok (st'', c)).
  { rewrite <- E. unfold after_add, st1. destruct (add_binding_to_tool _ _ _ _) as [[bs tbl]|]; reflexivity. }
  clear E. iba E2 as [bs1 tbl]. cbn [fst snd] in E2.
  (* the part after the tool, for a tool table alike the model's *)
  assert (K : forall ts al', ts_alike ts1 ts -> (In false al' -> In false al) ->
     let m := (ado ' (bs, tbl) <- add_binding_to_tool_a e (s_b (st1 ts)) i ubs; let st := set_b bs (st1 ts) in
          match tbl with None => aret (st, GOTCHA_INTERNAL) | Some tbl => after_add_a e rec (Z.of_nat (length ubs)) (length ubs) (st1 ts) bs tbl end) al' in
     match m with
     | Fault f => f = NullDeref /\ In false al /\ ~ short ubs al'
     | Ok ((st', c'), _) => (short ubs al' /\ c' = GOTCHA_INTERNAL /\ not_installed st st' ubs) \/ (~ short ubs al' /\ c' = c /\ alike st'' st')
     end).
  { intros ts al' A Hin. cbv zeta. destruct (add_alike e (s_b (st1 ts1)) ts i ubs bs1 tbl B0 A) as (ts2 & Ea & A2). change (set_btools ts (s_b (st1 ts1))) with (s_b (st1 ts)) in Ea.
    destruct (add_a_law e (s_b (st1 ts)) i ubs _ _ al' Ea) as [(I & N & X)|[(Sh & al2 & X)|(N & u & al2 & -> & X)]].
    - rewrite (abind_fault _ _ _ _ X). auto.
    - rewrite (abind_ok _ _ _ _ _ X). cbn [aret]. left. split; [exact Sh|]. split; [reflexivity|]. exact (not_installed_short st ts (u32 (l_gen (s_l st) + 1)) (length (b_tables (s_b st))) ubs).
    - rewrite (abind_ok _ _ _ _ _ X). cbn beta iota.
      assert (Qs : qbs (st1 ts1) bs1 tbl (length ubs)).
      { destruct (add_shape _ _ _ _ _ _ B0) as (bt & Eb & Es & Ei). intros bt' Eb' k Hk ib Hi. rewrite Eb in Eb'. injection Eb' as <-. rewrite Es in Hk. cbn [s_b set_b] in Hi. rewrite Ei in Hi.
        rewrite nth_error_app2 in Hi by lia. apply nth_error_In, in_map_iff in Hi. destruct Hi as (v & <- & Iv). cbn [ib_user]. exact (Q v Iv). }
      destruct (after_tools e rec' _ _ _ _ _ ts2 _ _ Qs A2 E2) as (Et & A3).
      assert (Qs2 : qbs (st1 ts) (set_btools ts2 bs1) tbl (length ubs)) by exact Qs.
      pose proof (after_refines e rec rec' (Z.of_nat (length ubs)) (length ubs) (st1 ts) (set_btools ts2 bs1) tbl Qs2 al2) as R.
      change (after_add e rec' (Z.of_nat (length ubs)) (length ubs) (st1 ts) (set_btools ts2 bs1) tbl) with (after_add e rec' (Z.of_nat (length ubs)) (length ubs) (st1 ts1) (set_btools ts2 bs1) tbl) in R.
      rewrite Et in R. destruct R as [(I & ->)|(u2 & al3 & -> & _ & ->)].
      + split; [reflexivity|]. split; [apply Hin, in_or_app; auto|exact N].
      + cbn [bind]. right. split; [exact N|]. split; [reflexivity|]. apply wt_alike, A3. }
  unfold get_or_create_tool in B. unfold get_or_create_tool_a. iba B as o. destruct o as [i0|].
  - injection B as -> ->. rewrite (abind_ok _ _ _ (ts1, Some i) al) by (unfold abind, alift; cbn [bind]; reflexivity). cbn beta iota. exact (K ts1 al (ts_alike_refl _) (fun H => H)).
  - destruct (create_tool_law _ _ _ _ _ al B) as [(r & -> & X)|(Hh & ts' & A & X)].
    + rewrite (abind_ok _ _ _ (b_tools (s_b st), None) r) by (unfold abind, alift; cbn [bind]; exact X). cbn. left. split; [left; reflexivity|]. split; [reflexivity|]. exact (not_installed_early st (b_tools (s_b st)) ubs).
    + rewrite (abind_ok _ _ _ (ts', Some i) (tl (tl al))) by (unfold abind, alift; cbn [bind]; exact X). cbn beta iota. specialize (K ts' (tl (tl al)) A (fun H => in_tl _ _ (in_tl _ _ H))). cbv zeta in K.
      match type of K with match ?a with _ => _ end => match goal with |- match ?b with _ => _ end => change b with a end end.
      destruct (abind _ _ _) as [[[st' c'] al']|].
      * destruct K as [(S & C & N)|(S & C & N)]; [left; auto|right]. split; [|auto]. intros [H|H]; [congruence|auto].
      * destruct K as (F & I & N). split; [exact F|]. split; [exact I|]. intros [H|H]; [congruence|auto].
Qed.
