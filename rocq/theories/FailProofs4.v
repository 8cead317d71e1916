(** gotcha_init when memory runs out. *)
From Verif Require Import Base ListFacts HashModel ElfModel SpecElf ToolModel CoreModel SpecCore SpecRun HashProofs HashTrace ToolProofs CoreMaps CoreRel CoreLib CoreStep CoreMicro CoreWrap CoreLoop CoreMain CoreFacts CoreEnv CoreHist CoreApi CoreApi3 FailModel SpecFail FailProofs FailProofs2 FailProofs3.

(** ** after_add and the child tables *)
Lemma after_tools_bind e rec na n st bs tbl ts : qbs st bs tbl n -> prios_same (b_tools bs) ts ->
  after_add e rec na n st (set_btools ts bs) tbl = bind (after_add e rec na n st bs tbl) (fun x => Ok (wt ts (fst x), snd x)).
Proof.
  intros Q A. unfold after_add. change (b_tables (set_btools ts bs)) with (b_tables bs). rewrite !bind_assoc. destruct (deref (b_tables bs) tbl) as [bt|] eqn:B; cbn [bind]; [|reflexivity].
  change (set_b (set_btools ts bs) st) with (wt ts (set_b bs st)). rewrite (wrap_loop_tools e rec na ts n (bt_start bt) (set_b bs st) _ (Q bt B)) by exact A. rewrite !bind_assoc.
  destruct (wrap_loop e rec na n (bt_start bt) (set_b bs st, mkPr 0 None)) as [[st1 pr]|]; cbn [bind fst snd]; [|reflexivity]. rewrite !bind_assoc. destruct (pr_new pr) as [t|].
  - rewrite update_all_tools, !bind_assoc. destruct (update_all_library_gots e t st1); reflexivity.
  - reflexivity.
Qed.

(** the state of gotcha_wrap when the bindings are added *)
Definition add_state (st : state) (ubs : list ubind) (ts : tstate) : state :=
  let st := set_b (set_btools ts (set_handles (null_handles ubs (b_handles (s_b st))) (s_b st))) st in
  set_l (mkLS (l_table (s_l st)) (l_heap (s_l st)) (l_list (s_l st)) (u32 (l_gen (s_l st) + 1))) st.
Lemma wrap_tool_parts e rec st ubs tool : wrap_tool e rec st ubs tool =
  do ' (ts, i) <- get_or_create_tool (e_ps e) (b_tools (s_b st)) (match tool with Some n => n | None => n_unspecified end);
  do ' (bs, tbl) <- add_binding_to_tool e (s_b (add_state st ubs ts)) i ubs;
  after_add e rec (Z.of_nat (length ubs)) (length ubs) (add_state st ubs ts) bs tbl.
Proof. reflexivity. Qed.

Lemma wrap_tool_a_crash e rec rec' st ubs tool al ts1 i bs1 tbl : (forall u, In u ubs -> quiet st (ub_name u)) ->
  get_or_create_tool (e_ps e) (b_tools (s_b st)) (match tool with Some n => n | None => n_unspecified end) = Ok (ts1, i) ->
  add_binding_to_tool e (s_b (add_state st ubs ts1)) i ubs = Ok (bs1, tbl) ->
  after_add e rec' (Z.of_nat (length ubs)) (length ubs) (add_state st ubs ts1) bs1 tbl = Fault NullDeref ->
  let int := internal (b_tools (s_b st)) (match tool with Some n => n | None => n_unspecified end) ubs al in
  match wrap_tool_a e rec st ubs tool al with
  | Fault f => f = NullDeref /\ ~ int
  | Ok ((st', c'), _) => int /\ c' = GOTCHA_INTERNAL /\ not_installed st st' ubs
  end.
Proof.
  intros Q B B0 E2 int. unfold int, internal. clear int. unfold wrap_tool_a.
  change (b_tools (s_b (set_b (set_handles (null_handles ubs (b_handles (s_b st))) (s_b st)) st))) with (b_tools (s_b st)) in *.
  set (n := match tool with Some n => n | None => n_unspecified end) in *. set (st1 := add_state st ubs) in *.
  assert (K : forall ts al', ts_alike ts1 ts ->
     let m := (ado ' (bs, tbl) <- add_binding_to_tool_a e (s_b (st1 ts)) i ubs; let st := set_b bs (st1 ts) in
          match tbl with None => aret (st, GOTCHA_INTERNAL) | Some tbl => after_add_a e rec (Z.of_nat (length ubs)) (length ubs) (st1 ts) bs tbl end) al' in
     match m with
     | Fault f => f = NullDeref /\ ~ short ubs al'
     | Ok ((st', c'), _) => short ubs al' /\ c' = GOTCHA_INTERNAL /\ not_installed st st' ubs
     end).
  { intros ts al' A. cbv zeta. destruct (add_alike e (s_b (st1 ts1)) ts i ubs bs1 tbl B0 A) as (ts2 & Ea & A2). change (set_btools ts (s_b (st1 ts1))) with (s_b (st1 ts)) in Ea.
    destruct (add_a_law e (s_b (st1 ts)) i ubs _ _ al' Ea) as [(I & N & X)|[(Sh & al2 & X)|(N & u & al2 & -> & X)]].
    - rewrite (abind_fault _ _ _ _ X). auto.
    - rewrite (abind_ok _ _ _ _ _ X). cbn [aret]. split; [exact Sh|]. split; [reflexivity|]. exact (not_installed_short st ts (u32 (l_gen (s_l st) + 1)) (length (b_tables (s_b st))) ubs).
    - rewrite (abind_ok _ _ _ _ _ X). cbn beta iota.
      assert (Qs : qbs (st1 ts1) bs1 tbl (length ubs)).
      { destruct (add_shape _ _ _ _ _ _ B0) as (bt & Eb & Es & Ei). intros bt' Eb' k Hk ib Hi. rewrite Eb in Eb'. injection Eb' as <-. rewrite Es in Hk. cbn [s_b set_b] in Hi. rewrite Ei in Hi.
        rewrite nth_error_app2 in Hi by lia. apply nth_error_In, in_map_iff in Hi. destruct Hi as (v & <- & Iv). cbn [ib_user]. exact (Q v Iv). }
      pose proof (after_tools_bind e rec' (Z.of_nat (length ubs)) _ _ _ _ ts2 Qs (alike_prios _ _ A2)) as Et. rewrite E2 in Et. cbn [bind] in Et.
      assert (Qs2 : qbs (st1 ts) (set_btools ts2 bs1) tbl (length ubs)) by exact Qs.
      pose proof (after_refines e rec rec' (Z.of_nat (length ubs)) (length ubs) (st1 ts) (set_btools ts2 bs1) tbl Qs2 al2) as R.
      change (after_add e rec' (Z.of_nat (length ubs)) (length ubs) (st1 ts) (set_btools ts2 bs1) tbl) with (after_add e rec' (Z.of_nat (length ubs)) (length ubs) (st1 ts1) (set_btools ts2 bs1) tbl) in R.
      rewrite Et in R. destruct R as [(I & ->)| ->]; auto. }
  unfold get_or_create_tool in B. unfold get_or_create_tool_a. iba B as o. destruct o as [i0|].
  - injection B as -> ->. rewrite (abind_ok _ _ _ (ts1, Some i) al) by (unfold abind, alift; cbn [bind]; reflexivity). cbn beta iota. exact (K ts1 al (ts_alike_refl _)).
  - destruct (create_tool_law _ _ _ _ _ al B) as [(r & -> & X)|(Hh & ts' & A & X)].
    + rewrite (abind_ok _ _ _ (b_tools (s_b st), None) r) by (unfold abind, alift; cbn [bind]; exact X). cbn. split; [left; reflexivity|]. split; [reflexivity|]. exact (not_installed_early st (b_tools (s_b st)) ubs).
    + rewrite (abind_ok _ _ _ (ts', Some i) (tl (tl al))) by (unfold abind, alift; cbn [bind]; exact X). cbn beta iota. specialize (K ts' (tl (tl al)) A). cbv zeta in K.
      match type of K with match ?a with _ => _ end => match goal with |- match ?b with _ => _ end => change b with a end end.
      destruct (abind _ _ _) as [[[st' c'] al']|].
      * destruct K as (S & C & N). auto.
      * destruct K as (F & N). split; [exact F|]. intros [H|H]; [congruence|auto].
Qed.

(** ** tables that were not created *)
Definition wf (ft nt : htable cstr nat) (bs : bstate) : bstate := set_nf nt (set_fn ft bs).
Definition wl (lt : htable lkey nat) (st : state) : state := set_l (mkLS lt (l_heap (s_l st)) (l_list (s_l st)) (l_gen (s_l st))) st.
Lemma add_tables e ft nt bs i ubs : add_binding_to_tool e (wf ft nt bs) i ubs = bind (add_binding_to_tool e bs i ubs) (fun x => Ok (wf ft nt (fst x), snd x)).
Proof.
  unfold add_binding_to_tool. change (b_tables (wf ft nt bs)) with (b_tables bs). change (b_ib (wf ft nt bs)) with (b_ib bs). change (b_handles (wf ft nt bs)) with (b_handles bs).
  destruct (fill_bindings _ _ _ _) as [ibs hs]. rewrite !bind_assoc. destruct (create_hashtable _ _ _ _) as [h|]; cbn [bind]; [|reflexivity]. rewrite !bind_assoc.
  destruct (fill_hash h ubs _) as [h'|]; cbn [bind]; [|reflexivity]. change (b_tools (wf ft nt bs)) with (b_tools bs). rewrite !bind_assoc.
  destruct (deref (ts_heap (b_tools bs)) i) as [t|]; reflexivity.
Qed.

(** the first binding of the loop: its priority is known, it does not wrap main *)
Lemma first_binding e rec na n st bs tbl x : qbs st bs tbl (Datatypes.S n) -> after_add e rec na (Datatypes.S n) st bs tbl = Ok x ->
  exists bt ib p, deref (b_tables bs) tbl = Ok bt /\ deref (b_ib bs) (bt_start bt) = Ok ib /\ binding_priority bs (bt_start bt) = Ok p /\
    forall st', s_main st' = s_main st -> wrap_main e rec st' (ub_name (ib_user ib)) = Ok st'.
Proof.
  intros Q E. unfold after_add in E. iba E as bt. iba E as [st1 pr]. cbn [wrap_loop] in B0. iba B0 as sp. unfold wrap_one in B1. iba B1 as [st2 r]. unfold rewrite_wrapper_orders in B2. iba B2 as ib. iba B2 as p.
  exists bt, ib, p. split; [reflexivity|]. split; [exact B3|]. split; [exact B4|]. intros st' M. apply quiet_main. pose proof (Q bt B (bt_start bt) ltac:(lia) ib (deref_inv _ _ _ B3)) as [H|H]; [left; rewrite M; exact H|right; exact H].
Qed.

Lemma crash_fn e rec na n st bs tbl x lt nt : qbs st bs tbl (Datatypes.S n) -> after_add e rec na (Datatypes.S n) st bs tbl = Ok x ->
  after_add e rec na (Datatypes.S n) (wl lt st) (wf zero_table nt bs) tbl = Fault NullDeref.
Proof.
  intros Q E. destruct (first_binding _ _ _ _ _ _ _ _ Q E) as (bt & ib & p & B1 & B2 & B3 & B4). unfold after_add. change (b_tables (wf zero_table nt bs)) with (b_tables bs). rewrite B1. cbn [bind wrap_loop].
  unfold wrap_one, rewrite_wrapper_orders. change (b_ib (s_b (set_b (wf zero_table nt bs) (wl lt st)))) with (b_ib bs). rewrite B2. cbn [bind].
  change (binding_priority (s_b (set_b (wf zero_table nt bs) (wl lt st))) (bt_start bt)) with (binding_priority bs (bt_start bt)). rewrite B3. cbn [bind]. rewrite B4 by reflexivity. reflexivity.
Qed.

Lemma crash_lib e rec na n st bs tbl x nt m r f : qbs st bs tbl (Datatypes.S n) -> after_add e rec na (Datatypes.S n) st bs tbl = Ok x ->
  smap (b_fn bs) f -> (forall k, f k = None) -> p_maps (s_p st) = m :: r ->
  after_add e rec na (Datatypes.S n) (wl zero_table st) (wf (b_fn bs) nt bs) tbl = Fault NullDeref.
Proof.
  intros Q E S F M. destruct (first_binding _ _ _ _ _ _ _ _ Q E) as (bt & ib & p & B1 & B2 & B3 & B4). unfold after_add. change (b_tables (wf (b_fn bs) nt bs)) with (b_tables bs). rewrite B1. cbn [bind wrap_loop].
  unfold wrap_one, rewrite_wrapper_orders. change (b_ib (s_b (set_b (wf (b_fn bs) nt bs) (wl zero_table st)))) with (b_ib bs). rewrite B2. cbn [bind].
  change (binding_priority (s_b (set_b (wf (b_fn bs) nt bs) (wl zero_table st))) (bt_start bt)) with (binding_priority bs (bt_start bt)). rewrite B3. cbn [bind]. rewrite B4 by reflexivity. cbn [bind].
  unfold place_binding. change (b_fn (s_b (set_b (wf (b_fn bs) nt bs) (wl zero_table st)))) with (b_fn bs). rewrite (smap_lookup _ _ _ S), F. cbn [bind].
  destruct (smap_add _ _ (ub_name (ib_user ib)) (bt_start bt) S (F _)) as (t' & Et & _). rewrite Et. cbn [bind need_lookup].
  change (b_ib (s_b (set_b (set_fn t' _) _))) with (b_ib bs). rewrite B2. cbn [bind].
  unfold prepare_symbol. change (b_ib (s_b (set_b (set_fn t' _) _))) with (b_ib bs). rewrite B2. cbn [bind].
  change (p_maps (s_p (set_b (set_fn t' _) _))) with (p_maps (s_p st)). rewrite M. reflexivity.
Qed.

(** ** without the table of functions not found *)
Definition wn (nt : htable cstr nat) (st : state) : state := set_b (set_nf nt (s_b st)) st.
Lemma set_wrappee_nf bs nt h v : set_wrappee (set_nf nt bs) h v = bind (set_wrappee bs h v) (fun x => Ok (set_nf nt x)).
Proof. unfold set_wrappee. change (b_handles (set_nf nt bs)) with (b_handles bs). destruct (b_handles bs h); reflexivity. Qed.
Lemma priority_nf bs nt b : binding_priority (set_nf nt bs) b = binding_priority bs b.
Proof. reflexivity. Qed.
Lemma order_loop_nf bs nt w p : forall f c, order_loop f (set_nf nt bs) w p c = order_loop f bs w p c.
Proof.
  induction f as [|f IH]; intros c; cbn [order_loop]; [reflexivity|]. change (b_ib (set_nf nt bs)) with (b_ib bs). destruct (deref (b_ib bs) c) as [x|]; cbn [bind]; [|reflexivity]. destruct (ib_next x) as [nx|]; [|reflexivity].
  rewrite priority_nf. destruct (binding_priority bs nx) as [np|]; cbn [bind]; [|reflexivity]. rewrite IH. reflexivity.
Qed.
Lemma insert_at_head_nf bs nt b h : insert_at_head (set_nf nt bs) b h = bind (insert_at_head bs b h) (fun x => Ok (set_nf nt x)).
Proof.
  unfold insert_at_head. change (set_ib (upd (b_ib (set_nf nt bs)) b (set_inext (Some h))) (set_nf nt bs)) with (set_nf nt (set_ib (upd (b_ib bs) b (set_inext (Some h))) bs)).
  set (bs1 := set_ib _ bs). change (b_ib (set_nf nt bs1)) with (b_ib bs1). rewrite !bind_assoc. destruct (deref (b_ib bs1) b) as [x|]; cbn [bind]; [|reflexivity]. rewrite !bind_assoc.
  destruct (deref (b_ib bs1) h) as [y|]; cbn [bind]; [|reflexivity]. rewrite set_wrappee_nf, !bind_assoc. destruct (set_wrappee bs1 _ _) as [bs2|]; cbn [bind]; [|reflexivity].
  change (b_fn (set_nf nt bs2)) with (b_fn bs2). rewrite !bind_assoc. destruct (removefrom_hashtable _ _) as [[t o]|]; cbn [bind]; [|reflexivity]. rewrite !bind_assoc. destruct (addto_hashtable t _ _); reflexivity.
Qed.
Lemma insert_after_nf bs nt b p : insert_after_pos (set_nf nt bs) b p = bind (insert_after_pos bs b p) (fun x => Ok (set_nf nt x)).
Proof.
  unfold insert_after_pos. change (b_ib (set_nf nt bs)) with (b_ib bs). rewrite !bind_assoc. destruct (deref (b_ib bs) b) as [x|]; cbn [bind]; [|reflexivity]. rewrite !bind_assoc.
  destruct (deref (b_ib bs) p) as [pb|]; cbn [bind]; [|reflexivity]. rewrite set_wrappee_nf, !bind_assoc. destruct (set_wrappee bs _ _) as [bs1|]; cbn [bind]; [|reflexivity].
  rewrite set_wrappee_nf, !bind_assoc. destruct (set_wrappee bs1 _ _) as [bs2|]; cbn [bind]; [|reflexivity]. change (b_ib (set_nf nt bs2)) with (b_ib bs2). rewrite !bind_assoc.
  destruct (deref (b_ib bs2) p) as [pb2|]; reflexivity.
Qed.
Lemma place_nf bs nt b n w p : place_binding (set_nf nt bs) b n w p = bind (place_binding bs b n w p) (fun x => Ok (set_nf nt (fst x), snd x)).
Proof.
  unfold place_binding. change (b_fn (set_nf nt bs)) with (b_fn bs). change (b_ib (set_nf nt bs)) with (b_ib bs). rewrite !bind_assoc.
  destruct (lookup_hashtable (b_fn bs) n) as [[h|]|]; cbn [bind]; [| |reflexivity].
  - rewrite priority_nf, !bind_assoc. destruct (binding_priority bs h) as [hp|]; cbn [bind]; [|reflexivity]. destruct (hp <? p).
    + rewrite insert_at_head_nf, !bind_assoc. destruct (insert_at_head bs b h); reflexivity.
    + rewrite order_loop_nf, !bind_assoc. destruct (order_loop _ bs w p h) as [[c|]|]; cbn [bind]; [|reflexivity|reflexivity]. rewrite insert_after_nf, !bind_assoc.
      destruct (insert_after_pos bs b c); reflexivity.
  - rewrite !bind_assoc. destruct (addto_hashtable (b_fn bs) n b); reflexivity.
Qed.
Lemma prepare_nf e st nt b : prepare_symbol e (wn nt st) b = bind (prepare_symbol e st b) (fun x => Ok (wn nt (fst x), snd x)).
Proof.
  unfold prepare_symbol. change (b_ib (s_b (wn nt st))) with (b_ib (s_b st)). change (s_p (wn nt st)) with (s_p st). change (s_l (wn nt st)) with (s_l st). rewrite !bind_assoc.
  destruct (deref (b_ib (s_b st)) b) as [ib|]; cbn [bind]; [|reflexivity]. rewrite !bind_assoc. destruct (prepare_loop e _ _ _) as [[l r]|]; cbn [bind]; [|reflexivity].
  destruct r; [|reflexivity]. change (s_b (set_l l (wn nt st))) with (set_nf nt (s_b (set_l l st))). rewrite set_wrappee_nf, !bind_assoc. destruct (set_wrappee _ _ _); reflexivity.
Qed.
Lemma update_all_nf e t st nt : update_all_library_gots e t (wn nt st) = bind (update_all_library_gots e t st) (fun x => Ok (wn nt x)).
Proof.
  unfold update_all_library_gots. change (b_ib (s_b (wn nt st))) with (b_ib (s_b st)). change (s_p (wn nt st)) with (s_p st). change (s_l (wn nt st)) with (s_l st). rewrite !bind_assoc.
  destruct (update_gots e _ t _ _) as [[l p]|]; reflexivity.
Qed.
Lemma zero_add (n : cstr) (b : nat) : addto_hashtable (zero_table : htable cstr nat) n b = Fault NullDeref.
Proof. reflexivity. Qed.

Lemma wrap_one_nf e rec na b st pr st' pr' : qb st b -> wrap_one e rec na b (st, pr) = Ok (st', pr') ->
  (pr_not_found pr' = pr_not_found pr /\ wrap_one e rec na b (wn zero_table st, pr) = Ok (wn zero_table st', pr')) \/
  (pr_not_found pr' = pr_not_found pr + 1 /\ wrap_one e rec na b (wn zero_table st, pr) = Fault NullDeref).
Proof.
  intros Q. generalize (eq_refl (wrap_one e rec na b (wn zero_table st, pr))). generalize (wrap_one e rec na b (wn zero_table st, pr)) at 1 3 4. intros W EW. symmetry in EW. revert EW. unfold wrap_one, rewrite_wrapper_orders. change (b_ib (s_b (wn zero_table st))) with (b_ib (s_b st)). intros EW E. iba E as [s0 r]. iba B as ib. iba B as ip. cbn [bind] in EW.
  change (s_b (wn zero_table st)) with (set_nf zero_table (s_b st)) in EW at 1. rewrite priority_nf, B1 in EW. cbn [bind] in EW.
  pose proof (Q ib (deref_inv _ _ _ B0)) as Qi. rewrite (quiet_main e rec (wn zero_table st)) in EW by exact Qi. rewrite (quiet_main e rec st) in B by exact Qi. cbn [bind] in *.
  iba B as [bs r0]. injection B as <- <-. change (s_b (wn zero_table st)) with (set_nf zero_table (s_b st)) in EW. rewrite place_nf, B2 in EW. cbn [bind fst snd] in EW.
  change (set_b (set_nf zero_table bs) (wn zero_table st)) with (wn zero_table (set_b bs st)) in EW. set (st1 := set_b bs st) in *. change (b_ib (s_b (wn zero_table st1))) with (b_ib (s_b st1)) in EW. iba E as ib1. cbn [bind] in EW.
  iba E as [st2 pr2].
  assert (X : (pr_not_found pr2 = pr_not_found pr /\ (if need_lookup r0 then do ' (st2, found) <- prepare_symbol e (wn zero_table st1) b;
        if (found : bool) then Ok (st2, pr) else do t <- addto_hashtable (b_nf (s_b st2)) (ub_name (ib_user ib1)) b; Ok (set_b (set_nf t (s_b st2)) st2, mkPr (pr_not_found pr + 1) (pr_new pr)) else Ok (wn zero_table st1, pr)) = Ok (wn zero_table st2, pr2)) \/
     (pr_not_found pr2 = pr_not_found pr + 1 /\ (if need_lookup r0 then do ' (st2, found) <- prepare_symbol e (wn zero_table st1) b;
        if (found : bool) then Ok (st2, pr) else do t <- addto_hashtable (b_nf (s_b st2)) (ub_name (ib_user ib1)) b; Ok (set_b (set_nf t (s_b st2)) st2, mkPr (pr_not_found pr + 1) (pr_new pr)) else Ok (wn zero_table st1, pr)) = Fault NullDeref)).
  { clear E EW. destruct (need_lookup r0); [|injection B3 as <- <-; left; auto]. rewrite prepare_nf. iba B3 as [st3 f]. cbn [bind fst snd]. destruct f; [injection B3 as <- <-; left; auto|].
    right. iba B3 as t. injection B3 as <- <-. split; reflexivity. }
  destruct X as [[H X]|[H X]]; rewrite X in EW; cbn [bind] in EW.
  - left. destruct (need_binding r0); [|injection E as <- <-; auto]. iba E as t. cbn [bind] in EW. iba E as t2. cbn [bind] in EW. injection E as <- <-. auto.
  - right. split; [|auto]. destruct (need_binding r0); [|injection E as <- <-; auto]. iba E as t. iba E as t2. injection E as <- <-. exact H.
Qed.
Lemma wrap_loop_nf e rec na : forall n b st pr st' pr', (forall k, (b <= k < b + n)%nat -> qb st k) -> wrap_loop e rec na n b (st, pr) = Ok (st', pr') ->
  (pr_not_found pr' = pr_not_found pr /\ wrap_loop e rec na n b (wn zero_table st, pr) = Ok (wn zero_table st', pr')) \/
  (pr_not_found pr < pr_not_found pr' /\ wrap_loop e rec na n b (wn zero_table st, pr) = Fault NullDeref).
Proof.
  induction n as [|n IH]; intros b st pr st' pr' Q E; cbn [wrap_loop] in *; [injection E as <- <-; left; auto|]. iba E as [st1 pr1].
  assert (Q1 : forall k, (Datatypes.S b <= k < Datatypes.S b + n)%nat -> qb st1 k).
  { intros k Hk. eapply stays_qb; [exact (wrap_one_stays _ _ _ _ _ _ _ _ (Q b ltac:(lia)) B)|]. apply Q. lia. }
  assert (Hge : pr_not_found pr1 <= pr_not_found pr') by (destruct (IH _ _ _ _ _ Q1 E) as [[H _]|[H _]]; lia).
  destruct (wrap_one_nf _ _ _ _ _ _ _ _ (Q b ltac:(lia)) B) as [[H X]|[H X]]; rewrite X; cbn [bind].
  - destruct (IH _ _ _ _ _ Q1 E) as [[H1 X1]|[H1 X1]]; [left|right]; (split; [lia|exact X1]).
  - right. split; [lia|reflexivity].
Qed.
Lemma crash_nf e rec na n st bs tbl st' c : qbs st bs tbl n -> after_add e rec na n st bs tbl = Ok (st', c) ->
  after_add e rec na n st (set_nf zero_table bs) tbl = if c =? GOTCHA_SUCCESS then Ok (wn zero_table st', c) else Fault NullDeref.
Proof.
  intros Q E. unfold after_add in *. change (b_tables (set_nf zero_table bs)) with (b_tables bs). iba E as bt. cbn [bind]. iba E as [st1 pr]. iba E as st2. injection E as <- <-.
  change (set_b (set_nf zero_table bs) st) with (wn zero_table (set_b bs st)).
  destruct (wrap_loop_nf _ _ _ _ _ _ _ _ _ (Q bt B) B0) as [[H X]|[H X]]; rewrite X; cbn [bind pr_not_found] in *.
  - rewrite H. cbn [Z.eqb negb]. destruct (pr_new pr) as [t|]; [rewrite update_all_nf, B1|injection B1 as <-]; reflexivity.
  - replace (pr_not_found pr =? 0) with false by (symmetry; apply Z.eqb_neq; lia). reflexivity.
Qed.

(** ** gotcha_init *)
Definition setup (lt : htable lkey nat) (ft nt : htable cstr nat) (st : state) : state :=
  mkSt true (s_main st) (wf ft nt (s_b st)) (mkLS lt (l_heap (s_l st)) (l_list (s_l st)) (l_gen (s_l st))) (s_p st).
Lemma setup_a_eq e st lt ft nt al : create_hashtable (e_ps e) 128 link_map_hash link_map_cmp = Ok lt -> create_hashtable (e_ps e) 4096 strhash libc_strcmp = Ok ft ->
  create_hashtable (e_ps e) 128 strhash libc_strcmp = Ok nt ->
  setup_hash_tables_a e (mkSt true (s_main st) (s_b st) (s_l st) (s_p st)) al =
    Ok (setup (if nth 0 al true then lt else l_table (s_l st)) (if nth 1 al true then ft else b_fn (s_b st)) (if nth 2 al true then nt else b_nf (s_b st)) st, skipn 3 al).
Proof.
  intros E1 E2 E3. unfold setup_hash_tables_a.
  rewrite (create_a_eq _ _ _ _ lt _ _ E1). destruct al as [|[] [|[] [|[] al]]]; cbn beta iota; rewrite (create_a_eq _ _ _ _ ft _ _ E2); cbn beta iota; rewrite (create_a_eq _ _ _ _ nt _ _ E3); reflexivity.
Qed.

Section Init.
Context (e : env) (EO : env_ok e).
Lemma init_plain rec st a : prel e (exports e) relocs st a ->
  exists lt ft nt st1 c, create_hashtable (e_ps e) 128 link_map_hash link_map_cmp = Ok lt /\ create_hashtable (e_ps e) 4096 strhash libc_strcmp = Ok ft /\
    create_hashtable (e_ps e) 128 strhash libc_strcmp = Ok nt /\ smap ft (fun _ => None) /\
    gotcha_init e (wrap_body e rec) st = Ok st1 /\ wrap_tool e rec (setup lt ft nt st) (dl_binds e) (Some n_gotcha) = Ok (st1, c) /\
    (c = GOTCHA_SUCCESS <-> first_export (exports e) (p_maps (s_p st)) n_dlopen <> None /\ first_export (exports e) (p_maps (s_p st)) n_dlsym <> None).
Proof.
  destruct EO as [Hps EH EW]. intros P.
  destruct (create_spec (K:=lkey) (D:=nat) (e_ps e) 128 link_map_hash link_map_cmp Hps ltac:(lia)) as (lt & Elt & Ilt & _).
  destruct (smap_create (e_ps e) 4096 Hps ltac:(lia)) as (ft & Eft & Hft).
  destruct (smap_create (e_ps e) 128 Hps ltac:(lia)) as (nt & Ent & Hnt).
  destruct (gotcha_init_spec e (exports e) relocs EO rec False st a P) as (st1 & ch & E & S & _ & _).
  pose proof E as E0. unfold gotcha_init in E. rewrite (pr_i _ _ _ _ _ P) in E. unfold setup_hash_tables in E. cbn [s_l s_b s_init s_main s_p] in E. rewrite Elt, Eft, Ent in E. cbn [bind] in E.
  iba E as [st2 c]. injection E as ->. exists lt, ft, nt, st1, c. do 5 (split; [assumption|]). split; [exact B|].
  set (a0 := mkA true (a_main a) (a_tools a) (a_stack a) (a_orig a) (a_maps a)).
  assert (S0 : srel e (exports e) relocs False (setup lt ft nt st) a0 (fun _ => []) []).
  { constructor; cbn; [reflexivity|reflexivity|rewrite (pr_m _ _ _ _ _ P), (pr_am _ _ _ _ _ P); reflexivity|apply (pr_maps _ _ _ _ _ P)|apply (pr_lib _ _ _ _ _ P)| | | | | |].
    - rewrite (pr_b _ _ _ _ _ P). cbn. constructor; cbn.
      + exists []. constructor; cbn; try constructor. intros t [].
      + rewrite (pr_at _ _ _ _ _ P). reflexivity.
      + intros i Hi. lia.
      + intros n. rewrite (pr_as _ _ _ _ _ P). constructor.
      + reflexivity.
      + constructor.
      + intros n i [].
      + intros i [].
      + constructor.
      + intros i ib Hi. destruct i; discriminate.
      + exact Hft.
    - exists (fun _ => None). split; [auto|]. split; [discriminate|]. intros n. rewrite (pr_as _ _ _ _ _ P). tauto.
    - intros n _. apply (pr_ao _ _ _ _ _ P).
    - rewrite (pr_l _ _ _ _ _ P). exists [], []. split; [exact Ilt|]. intros k i [].
    - intros [].
    - intros []. }
  destruct (wrap_tool_spec e (exports e) relocs Hps rec False false (setup lt ft nt st) a0 (fun _ => []) [] (dl_binds e) (Some n_gotcha) S0) as (st' & ch' & E & S' & _ & _).
  { intros []. } { discriminate. } { intros u [<-|[<-|[]]]; apply main_ok_other; cbn; apply names_neq. }
  change (wrap_body e rec (setup lt ft nt st) (dl_binds e) (Some n_gotcha)) with (wrap_tool e rec (setup lt ft nt st) (dl_binds e) (Some n_gotcha)) in B. 
  assert (B2 : wrap_tool e rec (setup lt ft nt st) (dl_binds e) (Some n_gotcha) = Ok (st1, c)) by exact B. rewrite E in B2. cbv zeta in *. clear B E S0 S'.
  match type of B2 with Ok (_, ?x) = _ => assert (Hc : c = x) by congruence end. clear B2. subst c. cbn [tool_of].
  rewrite (abinds_user_plain e (exports e) ins_c) by (left; intros u [<-|[<-|[]]]; cbn; apply names_neq).
  pose proof (abinds_flag (exports e) ins_c ins_c_ne n_gotcha (dl_binds e) (ause a0 n_gotcha)) as Fl. rewrite (pr_maps _ _ _ _ _ P).
  destruct (snd (abinds ins_c (exports e) (ause a0 n_gotcha) n_gotcha (dl_binds e))); split.
  - discriminate.
  - intros [H1 H2]. exfalso. destruct Fl as [Fl _]. destruct (Fl eq_refl) as (u & [<-|[<-|[]]] & _ & X); cbn in X; auto.
  - intros _. destruct Fl as [_ Fl]. split; intros X; discriminate Fl.
    + eexists. split; [left; reflexivity|]. split; [apply (pr_as _ _ _ _ _ P)|exact X].
    + eexists. split; [right; left; reflexivity|]. split; [apply (pr_as _ _ _ _ _ P)|exact X].
  - reflexivity.
Qed.

Lemma nth_false n : forall al : list bool, nth n al true = false -> In false al.
Proof. induction n as [|n IH]; intros [|b al] H; cbn in *; try discriminate; auto. Qed.
Lemma skipn_In {A} (x : A) n : forall l, In x (skipn n l) -> In x l.
Proof. induction n as [|n IH]; intros [|b l] H; cbn in *; auto. Qed.

Lemma init_law st a al : prel e (exports e) relocs st a -> p_maps (s_p st) <> [] ->
  exists st1, api_init e st = Ok st1 /\
  match gotcha_init_a e (wrap_n_a e 3) st al with
  | Fault f => f = NullDeref /\ In false al /\ ~ init_refused e al
  | Ok (st', _) =>
      (init_refused e al /\ s_init st' = true /\ s_main st' = s_main st /\ s_p st' = s_p st /\ dlopen_wrapped st' = false /\
       forall h, ~ In h (map ub_handle (dl_binds e)) -> b_handles (s_b st') h = b_handles (s_b st) h) \/
      (~ init_refused e al /\ nth 0 al true = true /\ nth 1 al true = true /\
       (nth 2 al true = true /\ alike st1 st' \/
        nth 2 al true = false /\ first_export (exports e) (p_maps (s_p st)) n_dlopen <> None /\ first_export (exports e) (p_maps (s_p st)) n_dlsym <> None /\
          alike (set_b (set_nf zero_table (s_b st1)) st1) st'))
  end.
Proof.
  intros P HM. destruct (init_plain (wrap_n e 2) st a P) as (lt & ft & nt & st1 & c & Elt & Eft & Ent & Hft & E & W & Hc). exists st1. split; [exact E|]. clear E.
  set (lt' := if nth 0 al true then lt else l_table (s_l st)). set (ft' := if nth 1 al true then ft else b_fn (s_b st)). set (nt' := if nth 2 al true then nt else b_nf (s_b st)).
  assert (X : gotcha_init_a e (wrap_n_a e 3) st al = (ado ' (st, _) <- wrap_tool_a e (wrap_n_a e 2) (setup lt' ft' nt' st) (dl_binds e) (Some n_gotcha); aret st) (skipn 3 al)).
  { unfold gotcha_init_a. rewrite (pr_i _ _ _ _ _ P). rewrite (abind_ok _ _ _ _ _ (setup_a_eq e st lt ft nt al Elt Eft Ent)). reflexivity. }
  rewrite X. clear X.
  assert (Q : forall u, In u (dl_binds e) -> quiet (setup lt' ft' nt' st) (ub_name u)) by (intros u [<-|[<-|[]]]; right; cbn; apply names_neq).
  assert (R : internal (b_tools (s_b (setup lt' ft' nt' st))) n_gotcha (dl_binds e) (skipn 3 al) <-> init_refused e al).
  { unfold internal. cbn [setup s_b]. change (b_tools (wf ft' nt' (s_b st))) with (b_tools (s_b st)). rewrite (pr_b _ _ _ _ _ P). reflexivity. }
  (* what holds when wrapping dlopen is given up *)
  assert (NI : forall st', not_installed (setup lt' ft' nt' st) st' (dl_binds e) -> s_init st' = true /\ s_main st' = s_main st /\ s_p st' = s_p st /\ dlopen_wrapped st' = false /\
       forall h, ~ In h (map ub_handle (dl_binds e)) -> b_handles (s_b st') h = b_handles (s_b st) h).
  { intros st' [N1 [N2 N2'] N3 [N4 _] N5 N6 N7 _]. split; [exact N2|]. split; [exact N2'|]. split; [exact N1|]. split; [|intros h Hh; apply N7; exact Hh].
    unfold dlopen_wrapped. rewrite N4. change (b_fn (s_b (setup lt' ft' nt' st))) with ft'. unfold ft'. destruct (nth 1 al true); [rewrite (smap_lookup _ _ _ Hft)|rewrite (pr_b _ _ _ _ _ P)]; reflexivity. }
  (* the parts of the call with enough memory *)
  pose proof W as W0. rewrite wrap_tool_parts in W. iba W as [ts1 i]. iba W as [bs1 tbl].
  assert (Qs : qbs (add_state (setup lt ft nt st) (dl_binds e) ts1) bs1 tbl 2).
  { destruct (add_shape _ _ _ _ _ _ B0) as (bt & Eb & Es & Ei). intros bt' Eb' k Hk ib Hi. rewrite Eb in Eb'. injection Eb' as <-. rewrite Es in Hk. cbn [s_b set_b] in Hi. rewrite Ei in Hi.
    rewrite nth_error_app2 in Hi by lia. apply nth_error_In, in_map_iff in Hi. destruct Hi as (v & <- & Iv). cbn [ib_user]. exact (Q v Iv). }
  assert (Bf : b_fn bs1 = ft).
  { revert B0. unfold add_binding_to_tool. destruct (fill_bindings _ _ _ _) as [ibs hs]. intros H. iba H as h. iba H as h2. iba H as t. injection H as <- _. reflexivity. }
  assert (T2 : add_binding_to_tool e (s_b (add_state (setup lt' ft' nt' st) (dl_binds e) ts1)) i (dl_binds e) = Ok (wf ft' nt' bs1, tbl)).
  { change (s_b (add_state (setup lt' ft' nt' st) (dl_binds e) ts1)) with (wf ft' nt' (s_b (add_state (setup lt ft nt st) (dl_binds e) ts1))). rewrite add_tables, B0. reflexivity. }
  (* a crash of the call without the tables *)
  assert (K : In false al -> after_add e (wrap_n e 2) 2 2 (add_state (setup lt' ft' nt' st) (dl_binds e) ts1) (wf ft' nt' bs1) tbl = Fault NullDeref ->
    match (ado ' (st, _) <- wrap_tool_a e (wrap_n_a e 2) (setup lt' ft' nt' st) (dl_binds e) (Some n_gotcha); aret st) (skipn 3 al) with
    | Fault f => f = NullDeref /\ In false al /\ ~ init_refused e al
    | Ok (st', _) => init_refused e al /\ s_init st' = true /\ s_main st' = s_main st /\ s_p st' = s_p st /\ dlopen_wrapped st' = false /\
       forall h, ~ In h (map ub_handle (dl_binds e)) -> b_handles (s_b st') h = b_handles (s_b st) h
    end).
  { intros I C. pose proof (wrap_tool_a_crash e (wrap_n_a e 2) (wrap_n e 2) (setup lt' ft' nt' st) (dl_binds e) (Some n_gotcha) (skipn 3 al) ts1 i _ tbl Q B T2 C) as L. cbv zeta in L.
    destruct (wrap_tool_a e (wrap_n_a e 2) (setup lt' ft' nt' st) (dl_binds e) (Some n_gotcha) (skipn 3 al)) as [[[st' c'] al']|f] eqn:X.
    - rewrite (abind_ok _ _ _ _ _ X). cbn. destruct L as (L1 & _ & L2). split; [apply R, L1|apply NI, L2].
    - rewrite (abind_fault _ _ _ _ X). destruct L as (L1 & L2). split; [exact L1|]. split; [exact I|]. rewrite <- R. exact L2. }
  (* a call that does its work *)
  assert (G : forall st2, nth 0 al true = true -> nth 1 al true = true -> wrap_tool e (wrap_n e 2) (setup lt' ft' nt' st) (dl_binds e) (Some n_gotcha) = Ok (st2, c) ->
    match (ado ' (st, _) <- wrap_tool_a e (wrap_n_a e 2) (setup lt' ft' nt' st) (dl_binds e) (Some n_gotcha); aret st) (skipn 3 al) with
    | Fault f => f = NullDeref /\ In false al /\ ~ init_refused e al
    | Ok (st', _) => (init_refused e al /\ s_init st' = true /\ s_main st' = s_main st /\ s_p st' = s_p st /\ dlopen_wrapped st' = false /\
       forall h, ~ In h (map ub_handle (dl_binds e)) -> b_handles (s_b st') h = b_handles (s_b st) h) \/ (~ init_refused e al /\ alike st2 st')
    end).
  { intros st2 _ _ C. pose proof (wrap_tool_a_law e (wrap_n_a e 2) (wrap_n e 2) (setup lt' ft' nt' st) (dl_binds e) (Some n_gotcha) st2 c (skipn 3 al) Q C) as L. cbv zeta in L.
    destruct (wrap_tool_a e (wrap_n_a e 2) (setup lt' ft' nt' st) (dl_binds e) (Some n_gotcha) (skipn 3 al)) as [[[st' c'] al']|f] eqn:X.
    - rewrite (abind_ok _ _ _ _ _ X). cbn. destruct L as [(L1 & _ & L2)|(L1 & _ & L2)]; [left; split; [apply R, L1|apply NI, L2]|right]. rewrite <- R. auto.
    - rewrite (abind_fault _ _ _ _ X). destruct L as (L1 & L2 & L3). split; [exact L1|]. split; [eapply skipn_In; exact L2|]. rewrite <- R. exact L3. }
  destruct (nth 1 al true) eqn:N1; [destruct (nth 0 al true) eqn:N0; [destruct (nth 2 al true) eqn:N2|]|].
  - specialize (G st1 eq_refl eq_refl W0). destruct ((ado ' (st, _) <- _; aret st) (skipn 3 al)) as [[st' al']|f]; [|exact G]. destruct G as [G|[G1 G2]]; [left; exact G|right]. auto 6.
  - assert (En : nt' = zero_table) by (unfold nt'; rewrite (pr_b _ _ _ _ _ P); reflexivity).
    pose proof (crash_nf _ _ _ _ _ _ _ _ _ Qs W) as C. 
    assert (C2 : after_add e (wrap_n e 2) 2 2 (add_state (setup lt' ft' nt' st) (dl_binds e) ts1) (wf ft' nt' bs1) tbl = if c =? GOTCHA_SUCCESS then Ok (wn zero_table st1, c) else Fault NullDeref).
    { assert (Ew : wf ft' nt' bs1 = set_nf zero_table bs1) by (rewrite En; unfold ft'; rewrite <- Bf; clear; destruct bs1; reflexivity). rewrite <- C, Ew. reflexivity. }
    destruct (c =? GOTCHA_SUCCESS) eqn:Ec.
    + apply Z.eqb_eq in Ec. apply Hc in Ec. destruct Ec as [Ec1 Ec2].
      assert (W2 : wrap_tool e (wrap_n e 2) (setup lt' ft' nt' st) (dl_binds e) (Some n_gotcha) = Ok (wn zero_table st1, c)).
      { rewrite wrap_tool_parts. change (b_tools (s_b (setup lt' ft' nt' st))) with (b_tools (s_b (setup lt ft nt st))). rewrite B. cbn [bind]. rewrite T2. cbn [bind]. exact C2. }
      specialize (G _ eq_refl eq_refl W2). destruct ((ado ' (st, _) <- _; aret st) (skipn 3 al)) as [[st' al']|f]; [|exact G]. destruct G as [G|[G1 G2]]; [left; exact G|right].
      split; [exact G1|]. split; [reflexivity|]. split; [reflexivity|]. right. auto.
    + specialize (K (nth_false 2 al N2) C2). destruct ((ado ' (st, _) <- _; aret st) (skipn 3 al)) as [[st' al']|f]; [left|]; exact K.
  - assert (C : after_add e (wrap_n e 2) 2 2 (add_state (setup lt' ft' nt' st) (dl_binds e) ts1) (wf ft' nt' bs1) tbl = Fault NullDeref).
    { destruct (p_maps (s_p st)) as [|m r] eqn:Em; [destruct (HM eq_refl)|]. assert (Ew : wf ft' nt' bs1 = wf (b_fn bs1) nt' bs1) by (unfold ft'; rewrite Bf; reflexivity). assert (El : lt' = zero_table) by (unfold lt'; rewrite (pr_l _ _ _ _ _ P); reflexivity). rewrite Ew, El.
      rewrite <- (crash_lib e (wrap_n e 2) 2 1 _ _ _ _ nt' m r (fun _ => None) Qs W ltac:(rewrite Bf; exact Hft) (fun _ => eq_refl) Em). reflexivity. }
    specialize (K (nth_false 0 al N0) C). destruct ((ado ' (st, _) <- _; aret st) (skipn 3 al)) as [[st' al']|f]; [left|]; exact K.
  - assert (C : after_add e (wrap_n e 2) 2 2 (add_state (setup lt' ft' nt' st) (dl_binds e) ts1) (wf ft' nt' bs1) tbl = Fault NullDeref).
    { unfold ft'. replace (b_fn (s_b st)) with (zero_table : htable cstr nat) by (rewrite (pr_b _ _ _ _ _ P); reflexivity). exact (crash_fn e (wrap_n e 2) 2 1 _ _ _ _ lt' nt' Qs W). }
    specialize (K (nth_false 1 al N1) C). destruct ((ado ' (st, _) <- _; aret st) (skipn 3 al)) as [[st' al']|f]; [left|]; exact K.
Qed.
End Init.
