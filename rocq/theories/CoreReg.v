(** The registry of tables of bindings is the history of gotcha_wrap. *)
From Verif Require Import Base ListFacts HashModel HashProofs SpecHash HashTrace ElfModel ToolModel CoreModel SpecCore SpecRun SpecReg
  ToolProofs CoreMaps CoreRel CoreLib CoreStep CoreWrap CoreLoop CoreMain CoreEnv CoreSpec CoreFacts CoreHist CoreApi CoreApi2 CoreMicro CoreMicro2.

(** table [i] is of the tool at index [j] *)
Definition of_tool (tabs : list btable) (j i : nat) : bool := match nth_error tabs i with Some b => Nat.eqb (bt_tool b) j | None => false end.

Lemma walk_app tabs more next p l : walk tabs next p l -> walk (tabs ++ more) next p l.
Proof. induction 1; econstructor; eauto. rewrite nth_error_app1; [auto|]. eapply nth_error_Some_lt; eauto. Qed.
Lemma of_tool_app tabs more j i : (i < length tabs)%nat -> of_tool (tabs ++ more) j i = of_tool tabs j i.
Proof. intros L. unfold of_tool. rewrite nth_error_app1; auto. Qed.
Lemma filter_ext_in_seq (f g : nat -> bool) n : (forall i, (i < n)%nat -> f i = g i) -> filter f (rev (seq 0 n)) = filter g (rev (seq 0 n)).
Proof. intros H. apply filter_ext_in. intros i Hi. apply in_rev in Hi. apply in_seq in Hi. apply H. lia. Qed.

(** *** binding_hash *)
Lemma fill_hash_ok ubs : forall t f start, smap t f -> NoDup (map ub_name ubs) -> (forall u, In u ubs -> f (ub_name u) = None) ->
  exists t' f', fill_hash t ubs start = Ok t' /\ smap t' f' /\ (forall k u, nth_error ubs k = Some u -> f' (ub_name u) = Some (start + k)%nat) /\
    (forall n, ~ In n (map ub_name ubs) -> f' n = f n).
Proof.
  induction ubs as [|u r IH]; intros t f start S ND N; cbn [fill_hash].
  - exists t, f. split; [auto|]. split; [auto|]. split; [intros [|k]; discriminate|auto].
  - inversion ND as [|? ? N1 N2]; subst. destruct (smap_add _ _ (ub_name u) start S (N u (or_introl eq_refl))) as (t1 & E1 & S1). rewrite E1. cbn [bind].
    destruct (IH t1 _ (Datatypes.S start) S1 N2) as (t' & f' & E & S' & H1 & H2).
    { intros u' H. unfold cupd, kupd. destruct (cstr_eqb (ub_name u') (ub_name u)) eqn:Q; [apply cstr_eqb_ok in Q; exfalso; apply N1; rewrite <- Q; apply in_map; auto|]. apply N. right. auto. }
    exists t', f'. split; [auto|]. split; [auto|]. split.
    + intros [|k] u' H; cbn in H.
      * injection H as <-. rewrite (H2 (ub_name u) N1). unfold cupd, kupd. rewrite (proj2 (cstr_eqb_ok _ _) eq_refl). f_equal. lia.
      * rewrite (H1 _ _ H). f_equal. lia.
    + intros n Hn. cbn in Hn. rewrite H2 by tauto. unfold cupd, kupd. destruct (cstr_eqb n (ub_name u)) eqn:Q; [apply cstr_eqb_ok in Q; exfalso; apply Hn; left; auto|auto].
Qed.

Record reg_ok (e : env) (b : bstate) (tr : trace) : Prop := {
  rg_len : length (b_tables b) = length tr;
  rg_tab : forall i n ubs, nth_error tr i = Some (n, ubs) -> table_is b i n ubs;
  rg_all : walk (b_tables b) bt_next (b_all b) (rev (seq 0 (length (b_tables b))));
  rg_tool : forall j t, nth_error (ts_heap (b_tools b)) j = Some t ->
    walk (b_tables b) bt_next_tool (t_binding t) (filter (of_tool (b_tables b) j) (rev (seq 0 (length (b_tables b)))));
  rg_bt : forall i bt, nth_error (b_tables b) i = Some bt -> (bt_tool bt < length (ts_heap (b_tools b)))%nat;
  rg_hash : 48 <= e_ps e -> forall i n ubs bt, nth_error tr i = Some (n, ubs) -> nth_error (b_tables b) i = Some bt -> ubs <> [] -> NoDup (map ub_name ubs) ->
    exists f, smap (bt_hash bt) f /\ (forall k u, nth_error ubs k = Some u -> f (ub_name u) = Some (bt_start bt + k)%nat) /\ (forall m, ~ In m (map ub_name ubs) -> f m = None) }.

Lemma reg_same e b b' tr : reg_ok e b tr -> breg_same b b' -> reg_ok e b' tr.
Proof.
  intros [A1 A2 A3 A4 A5 A6] [B1 B2 [B3 B4 B5] [B6 B7]]. constructor; rewrite ?B1, ?B2; auto.
  - intros i n ubs H. destruct (A2 _ _ _ H) as (bt & t & C1 & C2 & C3 & C4 & C5). destruct (B4 _ _ C2) as (t' & D1 & D2 & D3). exists bt, t'. rewrite B1. split; [auto|]. split; [auto|]. split; [congruence|]. split; [auto|].
    intros k u Hk. destruct (C5 _ _ Hk) as (ib & E1 & E2 & E3). destruct (B7 _ _ E1) as (ib' & F1 & F2 & F3). exists ib'. split; [auto|]. split; congruence.
  - intros j t H. destruct (le_lt_dec (length (ts_heap (b_tools b))) j) as [L|L].
    + rewrite (B5 _ _ L H). assert (N : filter (of_tool (b_tables b) j) (rev (seq 0 (length (b_tables b)))) = []); [|rewrite N; constructor].
      assert (N : forall l, filter (of_tool (b_tables b) j) l = []); [|apply N]. induction l as [|i l IH]; [auto|]. cbn. replace (of_tool (b_tables b) j i) with false; [auto|].
      unfold of_tool. destruct (nth_error (b_tables b) i) as [bt|] eqn:Q; [|auto]. apply A5 in Q. symmetry. apply Nat.eqb_neq. lia.
    + destruct (nth_error_lt_Some _ _ L) as [t0 H0]. destruct (B4 _ _ H0) as (t1 & H1 & _ & E). assert (t1 = t) by congruence. subst t1. rewrite E. auto.
  - intros i bt H. apply A5 in H. lia.
Qed.

Lemma reg_add e b tr tool t ubs b' tbl : reg_ok e b tr -> nth_error (ts_heap (b_tools b)) tool = Some t -> add_binding_to_tool e b tool ubs = Ok (b', tbl) ->
  reg_ok e b' (tr ++ [(t_name t, ubs)]).
Proof.
  intros [A1 A2 A3 A4 A5 A6] Ht E. unfold add_binding_to_tool in E. destruct (fill_bindings_spec (length (b_tables b)) ubs (b_ib b) (b_handles b)) as (hs & Ef & _). rewrite Ef in E.
  iba E as h1. iba E as h2. iba E as t0. apply deref_inv in B1. assert (t0 = t) by congruence. subst t0. injection E as <- _.
  set (nb := mkBT tool (length (b_ib b)) (Z.of_nat (length ubs)) h2 (t_binding t) (b_all b)). set (n := length (b_tables b)).
  assert (L : length (b_tables b ++ [nb]) = S n) by (rewrite app_length; cbn; fold n; lia).
  assert (NN : nth_error (b_tables b ++ [nb]) n = Some nb) by (rewrite nth_error_app2 by auto; unfold n; rewrite Nat.sub_diag; auto).
  assert (TB : forall j x, nth_error (upd (ts_heap (b_tools b)) tool (set_tbinding (Some n))) j = Some x ->
    exists y, nth_error (ts_heap (b_tools b)) j = Some y /\ t_name x = t_name y /\ t_binding x = if Nat.eqb tool j then Some n else t_binding y).
  { intros j x H. rewrite nth_error_upd in H. destruct (Nat.eqb tool j); [|eauto]. destruct (nth_error _ j) as [y|]; [|discriminate H]. cbn in H. injection H as <-. exists y. auto. }
  assert (BT : forall j y, nth_error (ts_heap (b_tools b)) j = Some y -> exists x, nth_error (upd (ts_heap (b_tools b)) tool (set_tbinding (Some n))) j = Some x /\ t_name x = t_name y).
  { intros j y H. rewrite nth_error_upd. destruct (Nat.eqb tool j); rewrite H; cbn; eauto. }
  constructor; cbn [b_tables b_all b_tools b_ib ts_heap]; rewrite ?L.
  - rewrite app_length. cbn. fold n in A1. lia.
  - intros i m us H. destruct (le_lt_dec (length tr) i) as [C|C].
    + rewrite nth_error_app2 in H by auto. destruct (i - length tr)%nat as [|k] eqn:Q; [|destruct k; discriminate H]. injection H as <- <-. assert (i = n) by (unfold n; lia). subst i.
      destruct (BT _ _ Ht) as (x & X1 & X2). exists nb, x. cbn [b_tables b_tools b_ib ts_heap]. split; [auto|]. split; [auto|]. split; [auto|]. split; [reflexivity|].
      intros k u Hk. exists (mkIB n u None Uninit). split; [|auto]. cbn [bt_start nb]. rewrite nth_error_app2 by lia. replace (length (b_ib b) + k - length (b_ib b))%nat with k by lia.
      rewrite nth_error_map, Hk. auto.
    + rewrite nth_error_app1 in H by auto. destruct (A2 _ _ _ H) as (bt & t1 & C1 & C2 & C3 & C4 & C5). destruct (BT _ _ C2) as (x & X1 & X2). exists bt, x. cbn [b_tables b_tools b_ib ts_heap].
      split; [rewrite nth_error_app1; [auto|eapply nth_error_Some_lt; eauto]|]. split; [auto|]. split; [congruence|]. split; [auto|].
      intros k u Hk. destruct (C5 _ _ Hk) as (ib & I1 & I2 & I3). exists ib. split; [|auto]. rewrite nth_error_app1; [auto|eapply nth_error_Some_lt; eauto].
  - rewrite rev_seq_S. econstructor; [exact NN|]. cbn [bt_next nb]. apply walk_app. exact A3.
  - intros j x H. destruct (TB _ _ H) as (y & Y1 & Y2 & Y3). rewrite rev_seq_S. cbn [filter]. unfold of_tool at 1. rewrite NN. cbn [bt_tool nb].
    rewrite (filter_ext_in_seq (of_tool (b_tables b ++ [nb]) j) (of_tool (b_tables b) j)) by (intros; apply of_tool_app; auto). rewrite Y3.
    destruct (Nat.eqb tool j) eqn:Q; [|apply walk_app; apply A4; auto]. apply Nat.eqb_eq in Q. subst j. assert (y = t) by congruence. subst y.
    econstructor; [exact NN|]. cbn [bt_next_tool nb]. apply walk_app. apply A4. auto.
  - intros i bt H. rewrite upd_length. destruct (le_lt_dec n i) as [C|C].
    + rewrite nth_error_app2 in H by auto. destruct (i - length (b_tables b))%nat as [|k]; [|destruct k; discriminate H]. injection H as <-. cbn. eapply nth_error_Some_lt; eauto.
    + rewrite nth_error_app1 in H by auto. eauto.
  - intros PS i m us bt H Hb NE ND. destruct (le_lt_dec (length tr) i) as [C|C].
    + rewrite nth_error_app2 in H by auto. destruct (i - length tr)%nat as [|k] eqn:Q; [|destruct k; discriminate H]. injection H as <- <-. assert (i = n) by (unfold n; lia). subst i.
      rewrite NN in Hb. injection Hb as <-. cbn [bt_hash bt_start nb]. destruct (smap_create (e_ps e) (Z.of_nat (length ubs) * 2) PS) as (h0 & E0 & S0); [destruct ubs; [congruence|cbn [length]; lia]|].
      assert (h0 = h1) by congruence. subst h0. destruct (fill_hash_ok ubs h1 _ (length (b_ib b)) S0 ND) as (h' & f & E1 & S1 & F1 & F2); [auto|]. assert (h' = h2) by congruence. subst h'. exists f. auto.
    + rewrite nth_error_app1 in H by auto. rewrite nth_error_app1 in Hb by (fold n in A1 |- *; lia). eapply A6; eauto.
Qed.

Lemma run_reg e maps mem ops st rs : run e (init_state maps mem) ops = Ok (st, rs) -> exists tr, reg_ok e (s_b st) tr /\ foreign tr = wrapped_arrays ops.
Proof.
  intros E. destruct (lift e maps mem (fun _ tr st => reg_ok e (s_b st) tr)) with (ops := ops) (st := st) (rs := rs) as (_ & tr & L & F); auto.
  - constructor; cbn; try (intros [|i]; intros; discriminate); [auto|constructor|intros _ [|i]; intros; discriminate].
  - intros l o tr st0 st' r L G Es. destruct o; cbn in G; try tauto; cbn in Es; injection Es as <- _; exact L.
  - intros l tr st0 st' L _ [->|(_ & _ & _ & _ & _ & _ & _ & S)] _; [auto|]. eapply reg_same; eauto.
  - intros l tr st0 tr1 st' L _ _ M. destruct M; rewrite ?app_nil_r; cbn [s_b set_b set_l set_p]; auto; [eapply reg_same; eauto|eapply reg_add; eauto].
  - exists tr. split; [auto|]. rewrite F. unfold wrapped_arrays, foreign. f_equal. apply flat_map_ext. intros [ubs [t|]| | | | | |]; reflexivity.
Qed.

(** the walk as tables *)
Lemma tabs_rev b tr : length (b_tables b) = length tr -> (forall i n ubs, nth_error tr i = Some (n, ubs) -> table_is b i n ubs) ->
  Forall2 (fun i x => table_is b i (fst x) (snd x)) (rev (seq 0 (length (b_tables b)))) (rev tr).
Proof.
  intros L H. rewrite L. clear L. induction tr as [|x tr IH] using rev_ind; [constructor|]. rewrite app_length. cbn [length]. rewrite Nat.add_1_r, rev_seq_S, rev_app_distr. cbn [rev app].
  destruct x as [n ubs]. constructor.
  - apply H. rewrite nth_error_app2 by auto. rewrite Nat.sub_diag. auto.
  - apply IH. intros i m us Hi. apply H. rewrite nth_error_app1; [auto|]. eapply nth_error_Some_lt; eauto.
Qed.
Lemma foreign_rev tr : foreign (rev tr) = rev (foreign tr).
Proof. induction tr as [|x tr IH]; [auto|]. cbn [rev]. rewrite foreign_app, IH. unfold foreign. cbn [filter]. destruct (negb _); cbn; [auto|rewrite app_nil_r; auto]. Qed.

Lemma all_bindings_thm e maps mem ops st rs : run e (init_state maps mem) ops = Ok (st, rs) ->
  exists idx reg, walk (b_tables (s_b st)) bt_next (b_all (s_b st)) idx /\ NoDup idx /\ (forall i, In i idx <-> (i < length (b_tables (s_b st)))%nat) /\
    Forall2 (fun i x => table_is (s_b st) i (fst x) (snd x)) idx reg /\
    filter (fun x => negb (cstr_eqb (fst x) n_gotcha)) reg = rev (wrapped_arrays ops).
Proof.
  intros E. destruct (run_reg _ _ _ _ _ _ E) as (tr & [A1 A2 A3 A4 A5 A6] & F). exists (rev (seq 0 (length (b_tables (s_b st))))), (rev tr). split; [auto|].
  split; [apply NoDup_rev, seq_NoDup|]. split; [intros i; rewrite <- in_rev, in_seq; lia|]. split; [apply tabs_rev; auto|]. change (foreign (rev tr) = rev (wrapped_arrays ops)). rewrite foreign_rev, F. auto.
Qed.

Lemma Forall2_filter {A B} (R : A -> B -> Prop) (f : A -> bool) (g : B -> bool) l c : (forall a b, R a b -> f a = g b) -> Forall2 R l c -> Forall2 R (filter f l) (filter g c).
Proof. intros H. induction 1 as [|a b l c Rab _ IH]; [constructor|]. cbn. rewrite (H _ _ Rab). destruct (g b); [constructor; auto|auto]. Qed.

Lemma tool_bindings_thm e maps mem ops st rs j t : process_ok e maps ops -> run e (init_state maps mem) ops = Ok (st, rs) ->
  nth_error (ts_heap (b_tools (s_b st))) j = Some t -> t_name t <> n_gotcha ->
  exists idx, walk (b_tables (s_b st)) bt_next_tool (t_binding t) idx /\
    Forall2 (fun i x => table_is (s_b st) i (fst x) (snd x)) idx (rev (filter (fun x => cstr_eqb (fst x) (t_name t)) (wrapped_arrays ops))).
Proof.
  intros PO E Ht NG. destruct (run_reg _ _ _ _ _ _ E) as (tr & [A1 A2 A3 A4 A5 A6] & F).
  assert (ND : NoDup (map t_name (ts_heap (b_tools (s_b st))))).
  { destruct (run_any e maps mem ops PO) as (st0 & E0 & R). rewrite E in E0. injection E0 as <- _. destruct R as [R|[ch S]].
    - rewrite (pr_b _ _ _ _ _ R). constructor.
    - pose proof (sr_b _ _ _ _ _ _ _ _ S) as B. destruct (br_tools _ _ _ _ _ B) as [l TO]. apply (to_names _ _ TO). }
  exists (filter (of_tool (b_tables (s_b st)) j) (rev (seq 0 (length (b_tables (s_b st)))))). split; [apply A4; auto|].
  assert (EQ : rev (filter (fun x => cstr_eqb (fst x) (t_name t)) (wrapped_arrays ops)) = filter (fun x => cstr_eqb (fst x) (t_name t)) (rev tr)).
  { rewrite <- F. clear - NG. induction tr as [|x tr IH]; [auto|]. cbn [rev]. rewrite filter_app, <- IH. unfold foreign. cbn [filter].
    destruct (cstr_eqb (fst x) n_gotcha) eqn:Q; cbn [negb].
    - apply cstr_eqb_ok in Q. destruct (cstr_eqb (fst x) (t_name t)) eqn:Q2; [apply cstr_eqb_ok in Q2; congruence|]. rewrite app_nil_r. auto.
    - cbn [filter]. destruct (cstr_eqb (fst x) (t_name t)); cbn [rev]; [auto|rewrite app_nil_r; auto]. }
  rewrite EQ. eapply Forall2_filter; [|apply tabs_rev; auto].
  intros i [n ubs] (bt & t1 & C1 & C2 & C3 & _). cbn [fst snd] in *. unfold of_tool. rewrite C1. destruct (Nat.eqb (bt_tool bt) j) eqn:Q.
  - apply Nat.eqb_eq in Q. symmetry. apply cstr_eqb_ok. congruence.
  - symmetry. destruct (cstr_eqb n (t_name t)) eqn:Q2; [|auto]. apply cstr_eqb_ok in Q2. apply Nat.eqb_neq in Q. exfalso. apply Q.
    apply (proj1 (NoDup_nth_error _) ND); [rewrite map_length; eapply nth_error_Some_lt; eauto|]. rewrite !nth_error_map, C2, Ht. cbn. congruence.
Qed.


Lemma nth_error_ext_eq {A} (l : list A) : forall l', (forall k, nth_error l k = nth_error l' k) -> l = l'.
Proof. induction l as [|x l IH]; intros [|y l'] H; [auto|discriminate (H O)|discriminate (H O)|]. f_equal; [injection (H O); auto|]. apply IH. intros k. apply (H (S k)). Qed.
Lemma binding_hash_thm e maps mem ops st rs i n ubs bt : process_ok e maps ops -> run e (init_state maps mem) ops = Ok (st, rs) ->
  table_is (s_b st) i n ubs -> nth_error (b_tables (s_b st)) i = Some bt -> ubs <> [] -> NoDup (map ub_name ubs) ->
  (forall k u, nth_error ubs k = Some u -> lookup_hashtable (bt_hash bt) (ub_name u) = Ok (Some (bt_start bt + k)%nat)) /\
  (forall m, ~ In m (map ub_name ubs) -> lookup_hashtable (bt_hash bt) m = Ok None).
Proof.
  intros PO E T Hb NE ND. destruct (run_reg _ _ _ _ _ _ E) as (tr & [A1 A2 A3 A4 A5 A6] & F).
  destruct (nth_error tr i) as [[n' ubs']|] eqn:Q; [|apply nth_error_None in Q; apply nth_error_Some_lt in Hb; lia].
  assert (ubs' = ubs).
  { destruct (A2 _ _ _ Q) as (bt1 & t1 & C1 & _ & _ & C4 & C5). destruct T as (bt2 & t2 & D1 & _ & _ & D4 & D5). assert (bt1 = bt2) by congruence. subst bt2. 
    assert (L : length ubs' = length ubs) by lia. apply nth_error_ext_eq. intros k. destruct (nth_error ubs' k) as [u|] eqn:U.
    - destruct (nth_error_lt_Some ubs k) as [u' U']; [rewrite <- L; eapply nth_error_Some_lt; eauto|]. destruct (C5 _ _ U) as (ib & I1 & I2 & _). destruct (D5 _ _ U') as (ib' & J1 & J2 & _). rewrite U'. f_equal. congruence.
    - symmetry. apply nth_error_None. apply nth_error_None in U. lia. }
  subst ubs'. destruct (A6 (eo_ps _ (po_env _ _ _ PO)) _ _ _ _ Q Hb NE ND) as (f & S & F1 & F2).
  split; [intros k u Hk; rewrite (smap_lookup _ _ _ S); f_equal; auto|intros m Hm; rewrite (smap_lookup _ _ _ S); f_equal; auto].
Qed.
