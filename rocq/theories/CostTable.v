(** The table of wrapped functions never holds a slot that waits to be used again. *)
From Verif Require Import Base ListFacts RaceCores HashModel ElfModel ToolModel CoreModel SpecCore SpecRun SpecHash HashProofs HashTrace CoreMaps CoreMicro SpecCost CostProofs.
From Coq Require Import Permutation.

Lemma upd_twice {A} (l : list A) i a b : upd (upd l i (fun _ => a)) i (fun _ => b) = upd l i (fun _ => b).
Proof. revert i. induction l as [|x r IH]; intros [|i]; cbn; try reflexivity. rewrite IH. reflexivity. Qed.

(** an entry taken out and put back under the same key comes to lie where it was *)
Lemma replace_clean {K D} {hf cmp} (t : htable K D) l c k v t1 t2 : ht_inv hf cmp t l c -> clean t ->
  removefrom_hashtable t k = Ok (t1, true) -> addto_hashtable t1 k v = Ok t2 -> clean t2.
Proof.
  intros I C R A.
  destruct (remove_spec t l c k I) as [(t1' & l1 & i0 & l2 & c1 & k0 & d0 & c2 & e0 & H1 & _ & _ & _ & _ & I1 & _)|[H1 _]]; [|congruence].
  assert (t1' = t1) by congruence. subst t1'. clear H1.
  apply addto_cases in A as [(w & j & Hw & E)|[A _]]; [|exact A].
  rewrite (Hw _ (inv_hf _ _ _ _ _ I1)) in E. clear Hw w.
  apply remove_stat in R as (S1 & i & L & Hi & St1). apply insert_stat in E as (_ & free & EP & St2).
  assert (Hlen : length (ht_table t1) = length (ht_table t)) by (pose proof (inv_len _ _ _ _ _ I); pose proof (inv_len _ _ _ _ _ I1); lia).
  assert (Hstart : start t1 (hf k) = start t (hf k)) by (unfold start; rewrite S1; reflexivity).
  pose proof (start_lt I (hf k)) as Hs. set (s := start t (hf k)) in *. set (n := length (ht_table t)) in *.
  (* where the entry was *)
  destruct (lookup_spec t l c k I) as [(i' & e & k' & dt & L' & He & Hes & Hk & _ & [Hm _])|[L' _]]; [|congruence].
  assert (i' = i) by congruence. subst i'.
  destruct (inv_entry _ _ _ _ _ I i e k' He Hes Hk) as (_ & di & Hdi & Ei & Hb). rewrite Hm in Ei, Hb. fold n s in Hdi, Ei, Hb.
  assert (B1 : forall d, (d < di)%nat -> nth_error (stat t1) (slot n s d) = Some INUSE).
  { intros d Hd. destruct (Hb d Hd) as (e' & He' & Hne). rewrite St1, nth_error_upd.
    destruct (Nat.eqb_spec i (slot n s d)) as [E|_]; [rewrite Ei in E; apply slot_inj in E; lia|].
    unfold stat. rewrite nth_error_map, He'. cbn. destruct (he_status e') eqn:Hst; [congruence| |reflexivity].
    exfalso. apply C. unfold stat. rewrite <- Hst. apply in_map. eapply nth_error_In, He'. }
  assert (B2 : nth_error (stat t1) (slot n s di) = Some TOMBSTONE).
  { rewrite <- Ei, St1, nth_error_upd, Nat.eqb_refl. rewrite Hi. reflexivity. }
  destruct (insert_probe_spec (ht_table t1) s) with (fuel := n) (d := O) as [(dj & ej & Hdj & Ep & Hej & Hnu & Hbj)|Hall]; rewrite ?Hlen; fold n; try lia.
  - rewrite Hlen in *. fold n in Ep, Hdj, Hej, Hbj. rewrite slot_0 in Ep by exact Hs.
    unfold probe_within in EP. fold (start t1 (hf k)) in EP. rewrite Hstart in EP. fold s in EP. rewrite (to_nat_size I1), Hlen in EP. fold n in EP.
    rewrite Ep in EP. injection EP as <- <-.
    assert (dj = di).
    { destruct (lt_eq_lt_dec dj di) as [[H|H]|H]; [|auto|].
      - specialize (B1 dj H). unfold stat in B1. rewrite nth_error_map, Hej in B1. cbn in B1. congruence.
      - destruct (Hbj di H) as (e' & He' & Hs'). unfold stat in B2. rewrite nth_error_map, He' in B2. cbn in B2. congruence. }
    subst dj. rewrite <- Ei in St2. rewrite St1, upd_twice in St2. unfold clean. rewrite St2. intros H. apply in_upd in H as [H|H]; [discriminate|]. exact (C H).
  - exfalso. unfold stat in B2. rewrite nth_error_map in B2. destruct (nth_error (ht_table t1) (slot n s di)) as [e'|] eqn:E'; [|discriminate].
    specialize (Hall _ _ E'). cbn in B2. congruence.
Qed.

(** bindings keep their user's part *)
Definition users (l l' : list ibind) : Prop := forall i b, deref l i = Ok b -> exists b', deref l' i = Ok b' /\ ib_user b' = ib_user b.
Lemma users_refl l : users l l.
Proof. intros i b H. eauto. Qed.
Lemma users_trans l1 l2 l3 : users l1 l2 -> users l2 l3 -> users l1 l3.
Proof. intros A B i b H. destruct (A i b H) as (b2 & H2 & E2). destruct (B i b2 H2) as (b3 & H3 & E3). exists b3. split; congruence. Qed.
Lemma users_fill tbl ubs : forall ibs hs, users ibs (fst (fill_bindings tbl ubs ibs hs)).
Proof.
  induction ubs as [|u r IH]; intros ibs hs; cbn [fill_bindings]; [apply users_refl|]. eapply users_trans; [|apply IH].
  intros i b H. exists b. split; [|reflexivity]. unfold deref in *. destruct (nth_error ibs i) eqn:E; [|discriminate]. rewrite nth_error_app1, E; [auto|]. eapply nth_error_Some_lt, E.
Qed.
Lemma mic_users e tr st st' : mic e st tr st' -> users (b_ib (s_b st)) (b_ib (s_b st')).
Proof.
  intros M. destruct M; try apply users_refl.
  - destruct H as [_ _ _ [_ H]]. intros i b Hb. unfold deref in *. cbn [set_b s_b]. destruct (nth_error (b_ib (s_b st)) i) eqn:E; [|discriminate]. injection Hb as ->.
    destruct (H i b E) as (b' & H1 & H2 & _). rewrite H1. eauto.
  - unfold add_binding_to_tool in H0. pose proof (users_fill (length (b_tables (s_b st))) ubs (b_ib (s_b st)) (b_handles (s_b st))) as U.
    destruct (fill_bindings _ _ _ _) as [ibs hs]. ib H0. ib H0. ib H0. injection H0 as <- _. exact U.
Qed.
Lemma mics_users e tr st st' : mics e tr st st' -> users (b_ib (s_b st)) (b_ib (s_b st')).
Proof. induction 1; [apply users_refl|]. eapply users_trans; [eapply mic_users; eassumption|auto]. Qed.

Section Names.
Context (W : list cstr).
(** the table of wrapped functions: a map from names in [W], with no slot waiting to be used again, unused entries with hash value 0 *)
Definition tidy (t : htable cstr nat) : Prop := exists f, smap t f /\ (forall n, f n <> None -> In n W) /\ clean t /\ blank t.
Definition inw (b : ibind) : Prop := In (ub_name (ib_user b)) W.
Record kept (st : state) : Prop := { k_init : s_init st = true; k_fn : tidy (b_fn (s_b st)); k_ib : Forall inw (b_ib (s_b st)) }.

Lemma tidy_within t name m : tidy t -> (length W < m)%nat -> exists r, lookup t name = Ok r /\ lookup_within m t name = Ok r.
Proof.
  intros (f & (l & c & I & _ & N & F) & Hd & C & _) Hm.
  assert (exists r, lookup t name = Ok r) as [r Hr] by (destruct (lookup_spec t l c name I) as [(i & e & k' & dt & H & _)|[H _]]; eauto).
  exists r. split; [auto|]. rewrite (within_used t l c name m I); [auto|].
  rewrite (clean_used _ C), (inuse_count I), (inv_count_c I).
  assert (length (map fst c) <= length W)%nat as H.
  { apply NoDup_incl_length; [auto|]. intros k Hk. apply Hd. rewrite <- F. apply in_map_iff in Hk as ([k0 d] & <- & Hin). cbn.
    unfold aget. destruct (find _ c) eqn:E; [discriminate|]. pose proof (find_none _ _ E _ Hin) as H. cbn in H. rewrite cstr_eqb_refl in H. discriminate. }
  rewrite map_length in H. lia.
Qed.
Lemma tidy_add t n v t' : tidy t -> lookup_hashtable t n = Ok None -> In n W -> addto_hashtable t n v = Ok t' -> tidy t'.
Proof.
  intros (f & Hf & Hd & C & Bl) L Hn E. rewrite (smap_lookup _ _ n Hf) in L. injection L as L.
  destruct (smap_add t f n v Hf L) as (t2 & E2 & H2). assert (t2 = t') by congruence. subst t2.
  exists (cupd f n (Some v)). split; [auto|]. split; [|split; [eapply addto_clean; eauto|eapply addto_blank; eauto]].
  intros m. destruct (cstr_dec m n) as [->|Hne]; [auto|]. rewrite cupd_neq by auto. apply Hd.
Qed.
Lemma tidy_replace t n v h t1 b t2 : tidy t -> lookup_hashtable t n = Ok (Some h) -> removefrom_hashtable t n = Ok (t1, b) -> addto_hashtable t1 n v = Ok t2 -> tidy t2.
Proof.
  intros (f & Hf & Hd & C & Bl) L R A. rewrite (smap_lookup _ _ n Hf) in L. injection L as L.
  destruct (smap_remove t f n Hf) as (t1' & R' & H1). rewrite L in R'. assert (t1' = t1 /\ b = true) as [-> ->] by (split; congruence).
  destruct (smap_add t1 _ n v H1) as (t2' & A' & H2); [apply cupd_eq|]. assert (t2' = t2) by congruence. subst t2'.
  exists (cupd (cupd f n None) n (Some v)). split; [auto|]. split.
  - intros m. destruct (cstr_dec m n) as [->|Hne]; [intros _; apply Hd; congruence|]. rewrite !cupd_neq by auto. apply Hd.
  - split; [destruct Hf as (l & c & I & _); eapply replace_clean; eauto|]. eapply addto_blank; eauto. eapply remove_blank; eauto.
Qed.

Lemma upd_inw l i f : (forall b, ib_user (f b) = ib_user b) -> Forall inw l -> Forall inw (upd l i f).
Proof.
  intros Hf H. revert i. induction H as [|b r Hb Hr IH]; intros [|i]; cbn; constructor; auto. unfold inw in *. rewrite Hf. auto.
Qed.
Lemma set_wrappee_kept bs h v bs' : set_wrappee bs h v = Ok bs' -> Forall inw (b_ib bs) -> b_fn bs' = b_fn bs /\ Forall inw (b_ib bs').
Proof. unfold set_wrappee. destruct (b_handles bs h); [|discriminate]. intros E H. injection E as <-. split; [reflexivity|]. apply upd_inw; auto. Qed.

Lemma deref_inw l i b : deref l i = Ok b -> Forall inw l -> inw b.
Proof. unfold deref. destruct (nth_error l i) eqn:E; [|discriminate]. intros H F. injection H as <-. eapply Forall_forall; [exact F|]. eapply nth_error_In, E. Qed.

Lemma upd_deref_user l i f j b : (forall b, ib_user (f b) = ib_user b) -> deref (upd l i f) j = Ok b -> exists b0, deref l j = Ok b0 /\ ib_user b = ib_user b0.
Proof.
  intros Hf. unfold deref. rewrite nth_error_upd. destruct (Nat.eqb i j); destruct (nth_error l j) as [b0|]; cbn; try discriminate; intros E; injection E as <-; eauto.
Qed.
Lemma insert_at_head_kept bs b h bs' n : insert_at_head bs b h = Ok bs' -> (forall x, deref (b_ib bs) b = Ok x -> ub_name (ib_user x) = n) ->
  lookup_hashtable (b_fn bs) n = Ok (Some h) -> tidy (b_fn bs) -> Forall inw (b_ib bs) -> tidy (b_fn bs') /\ Forall inw (b_ib bs').
Proof.
  unfold insert_at_head. intros E Hn L T F. cbn [b_ib set_ib] in E.
  ib E. ib E. ib E. iba E as [t1 x1]. ib E. injection E as <-.
  destruct (upd_deref_user _ _ (set_inext (Some h)) _ _ ltac:(reflexivity) B) as (b0 & D0 & U). pose proof (Hn _ D0) as HN. rewrite <- U in HN. rewrite HN in *.
  apply set_wrappee_kept in B1 as [E1 F1]; [|apply upd_inw; auto]. cbn [b_fn set_ib] in E1. rewrite E1 in B2.
  cbn [set_fn b_fn b_ib]. split; [|auto]. eapply tidy_replace; eauto.
Qed.
Lemma insert_after_kept bs b p bs' : insert_after_pos bs b p = Ok bs' -> Forall inw (b_ib bs) -> b_fn bs' = b_fn bs /\ Forall inw (b_ib bs').
Proof.
  unfold insert_after_pos. intros E F. ib E. ib E. ib E. ib E. ib E. injection E as <-.
  apply set_wrappee_kept in B1 as [E1 F1]; [|auto]. apply set_wrappee_kept in B2 as [E2 F2]; [|auto].
  cbn [b_fn b_ib set_ib]. split; [congruence|]. apply upd_inw; [reflexivity|]. apply upd_inw; auto.
Qed.
Lemma place_kept bs b n w p bs' r : place_binding bs b n w p = Ok (bs', r) -> (forall x, deref (b_ib bs) b = Ok x -> ub_name (ib_user x) = n) -> In n W ->
  tidy (b_fn bs) -> Forall inw (b_ib bs) -> tidy (b_fn bs') /\ Forall inw (b_ib bs').
Proof.
  unfold place_binding. intros E Hn Hw T F. iba E as r0. destruct r0 as [h|].
  - ib E. destruct (_ <? _).
    + ib E. injection E as <- _. eapply insert_at_head_kept; eauto.
    + iba E as cur. destruct cur; [|injection E as <- _; auto]. ib E. injection E as <- _. apply insert_after_kept in B2 as [-> F2]; auto.
  - ib E. injection E as <- _. cbn [set_fn b_fn b_ib]. split; [|auto]. eapply tidy_add; eauto.
Qed.
Lemma prepare_kept e st b st' f : prepare_symbol e st b = Ok (st', f) -> kept st -> kept st'.
Proof.
  unfold prepare_symbol. intros E [I T F]. ib E. iba E as [l r]. destruct r; [|injection E as <- _; constructor; auto].
  ib E. injection E as <- _. apply set_wrappee_kept in B1 as [E1 F1]; [|auto]. constructor; cbn [set_b set_l s_b s_init] in *; [auto|rewrite E1; auto|auto].
Qed.
Lemma update_kept e t st st' : update_all_library_gots e t st = Ok st' -> kept st -> kept st'.
Proof. unfold update_all_library_gots. intros E [I T F]. iba E as [l p]. injection E as <-. constructor; auto. Qed.
Lemma fill_bindings_kept tbl ubs : forall ibs hs, Forall inw ibs -> (forall u, In u ubs -> In (ub_name u) W) -> Forall inw (fst (fill_bindings tbl ubs ibs hs)).
Proof.
  induction ubs as [|u r IH]; intros ibs hs F H; cbn [fill_bindings]; [auto|]. apply IH; [|intros; apply H; right; auto].
  apply Forall_app. split; [auto|]. constructor; [|constructor]. unfold inw. cbn. apply H. left. reflexivity.
Qed.

Section Rec.
Context (e : env) (rec : wrap_fun).
Context (Hrec : forall st ubs t st' c, kept st -> (forall u, In u ubs -> In (ub_name u) W) -> rec st ubs t = Ok (st', c) -> kept st').
Context (HW : incl own_names W).

Lemma wrap_main_kept st n st' : kept st -> wrap_main e rec st n = Ok st' -> kept st'.
Proof.
  unfold wrap_main. intros K E. destruct (_ && _); [|injection E as <-; auto]. iba E as [st1 c1]. iba E as [st2 c2]. injection E as <-.
  assert (K1 : kept st1).
  { eapply Hrec; [| |exact B]; [destruct K; constructor; auto|]. intros u [<-|[]]. apply HW. cbn. auto. }
  eapply Hrec; [exact K1| |exact B0]. intros u [<-|[]]. apply HW. cbn. auto.
Qed.
Lemma rewrite_kept (Hm : forall st n st', s_init st = true -> wrap_main e rec st n = Ok st' -> users (b_ib (s_b st)) (b_ib (s_b st'))) st b st' r :
  kept st -> rewrite_wrapper_orders e rec st b = Ok (st', r) -> kept st'.
Proof.
  unfold rewrite_wrapper_orders. intros K E. iba E as x. ib E. iba E as st1. iba E as [bs r']. injection E as <- _.
  pose proof (wrap_main_kept _ _ _ K B1) as [I1 T1 F1]. pose proof (Hm _ _ _ (k_init _ K) B1) as U.
  destruct (place_kept _ _ _ _ _ _ _ B2) as [T2 F2]; [| |exact T1|exact F1|constructor; auto].
  - intros y Hy. destruct (U _ _ B) as (y' & Hy' & E'). assert (y' = y) by congruence. subst. congruence.
  - apply (deref_inw _ _ _ B (k_ib _ K)).
Qed.
Context (Hm : forall st n st', s_init st = true -> wrap_main e rec st n = Ok st' -> users (b_ib (s_b st)) (b_ib (s_b st'))).
Lemma wrap_one_kept na b st pr st' pr' : kept st -> wrap_one e rec na b (st, pr) = Ok (st', pr') -> kept st'.
Proof.
  unfold wrap_one. intros K E. iba E as [st1 r]. ib E. iba E as [st2 pr2]. apply (rewrite_kept Hm) in B; [|auto].
  assert (K2 : kept st2).
  { destruct (need_lookup r); [|injection B1 as <- _; auto]. iba B1 as [st3 f]. apply prepare_kept in B2; [|auto].
    destruct f; [injection B1 as <- _; auto|]. ib B1. injection B1 as <- _. destruct B2; constructor; auto. }
  destruct (need_binding r); [|injection E as <- _; auto]. ib E. ib E. injection E as <- _. auto.
Qed.
Lemma wrap_loop_kept na : forall n b st pr st' pr', kept st -> wrap_loop e rec na n b (st, pr) = Ok (st', pr') -> kept st'.
Proof.
  induction n as [|n IH]; intros b st pr st' pr' K E; cbn [wrap_loop] in E; [injection E as <- _; auto|]. iba E as [st1 pr1].
  eapply IH; [|exact E]. eapply wrap_one_kept; eauto.
Qed.
Lemma wrap_tool_kept st ubs tool st' c : kept st -> (forall u, In u ubs -> In (ub_name u) W) -> wrap_tool e rec st ubs tool = Ok (st', c) -> kept st'.
Proof.
  unfold wrap_tool. intros [I T F] HU E. iba E as [ts i]. iba E as [bs tbl]. ib E. iba E as [st1 pr]. ib E. injection E as <- _.
  assert (K1 : kept st1).
  { eapply wrap_loop_kept; [|exact B2]. unfold add_binding_to_tool in B0. cbn [s_b set_l set_b b_tools set_btools b_tables b_ib b_handles set_handles b_fn b_all b_nf] in B0.
    match type of B0 with context [fill_bindings ?x ?y ?z ?w] => pose proof (fill_bindings_kept x y z w F HU) as F1; destruct (fill_bindings x y z w) as [ibs hs] end. ib B0. ib B0. ib B0. injection B0 as <- _.
    constructor; auto. }
  destruct (pr_new pr); [eapply update_kept; eauto|injection B3 as <-; auto].
Qed.
End Rec.

Context (e : env) (PS : 48 <= e_ps e) (HW : incl own_names W).
Lemma wrap_n_kept : forall n st ubs t st' c, kept st -> (forall u, In u ubs -> In (ub_name u) W) -> wrap_n e n st ubs t = Ok (st', c) -> kept st'.
Proof.
  induction n as [|n IH]; intros st ubs t st' c K HU E; [discriminate|]. cbn [wrap_n] in E. unfold wrap_body in E. ib E.
  unfold gotcha_init in B. rewrite (k_init _ K) in B. injection B as <-.
  eapply (wrap_tool_kept e (wrap_n e n)); [exact IH|exact HW| |exact K|exact HU|exact E].
  intros s m s' Hi Hw. apply (wrap_main_mics e (wrap_n e n)) in Hw; [|intros; eapply wrap_n_mics; eauto|auto]. destruct Hw as (tr & _ & M). eapply mics_users, M.
Qed.
Definition ready (st : state) : Prop := if s_init st then kept st else b_ib (s_b st) = [].
Lemma init_kept n st st' : ready st -> gotcha_init e (wrap_n e n) st = Ok st' -> kept st'.
Proof.
  unfold ready, gotcha_init. destruct (s_init st); [intros K E; injection E as <-; auto|]. intros Hib E. iba E as st1. iba E as [st2 c]. injection E as <-.
  eapply wrap_n_kept; [| |exact B0].
  - unfold setup_hash_tables in B. iba B as lt. iba B as ft. iba B as nt. injection B as <-. constructor; cbn [s_init set_l set_b s_b b_fn set_nf set_fn b_ib].
    + reflexivity.
    + destruct (smap_create (e_ps e) 4096 PS ltac:(lia)) as (t & Ht & Hf). assert (t = ft) by congruence. subst t. exists (fun _ => None). split; [auto|]. split; [congruence|].
      split; [eapply create_clean; eauto|eapply create_blank; eauto].
    + rewrite Hib. constructor.
  - intros u [<-|[<-|[]]]; apply HW; cbn; auto.
Qed.
Lemma foreach_kept {K D} (get : state -> htable K D) cb : (forall k d st st' c, kept st -> cb k d st = Ok (st', c) -> kept st') ->
  forall fuel i st st' c, kept st -> foreach_loop fuel get cb i st = Ok (st', c) -> kept st'.
Proof.
  intros Hc. induction fuel as [|f IH]; intros i st st' c Hk E; destruct i as [p|]; cbn [foreach_loop] in E; try discriminate; try (injection E as <- _; auto).
  destruct (nth_error _ p) as [x|]; [|discriminate]. destruct (cb _ _ _) as [[s1 r1]|] eqn:EC; cbn [bind] in E; [|discriminate].
  pose proof (Hc _ _ _ _ _ Hk EC) as K1.
  destruct (negb _); [injection E as <- _; auto|]. destruct (nth_error _ p); [|discriminate]. eapply IH; eauto.
Qed.
Lemma ready_same st st' : s_init st' = s_init st -> s_b st' = s_b st -> ready st -> ready st'.
Proof.
  unfold ready. intros Ei Eb. rewrite Ei. destruct (s_init st) eqn:Hi; [|congruence]. intros [_ T F]. constructor; rewrite ?Eb; auto.
Qed.
Lemma step_ready st o st' x : ready st -> incl (named [o]) W -> step e st o = Ok (st', x) -> ready st'.
Proof.
  intros R HN E. destruct o; cbn [step] in E.
  - iba E as [st1 c]. injection E as <- _. change (wrap_body e (wrap_n e 2) st ubs tool = Ok (st1, c)) in B. unfold wrap_body in B. iba B as st2.
    apply init_kept in B0; [|auto].
    assert (K : kept st1).
    { eapply (wrap_tool_kept e (wrap_n e 2)); [apply wrap_n_kept|exact HW| |exact B0| |exact B].
      - intros s m s' Hi Hw. apply (wrap_main_mics e (wrap_n e 2)) in Hw; [|intros; eapply wrap_n_mics; eauto|auto]. destruct Hw as (tr & _ & M). eapply mics_users, M.
      - intros u Hu. apply HN. cbn [named flat_map]. rewrite app_nil_r. apply in_map. auto. }
    unfold ready. rewrite (k_init _ K). auto.
  - iba E as [st1 c]. injection E as <- _. unfold gotcha_set_priority in B. iba B as st2. iba B as ts. injection B as <- _. apply init_kept in B0; [|auto].
    unfold ready. cbn [set_b s_init]. rewrite (k_init _ B0). destruct B0; constructor; auto.
  - iba E as [st1 [c v]]. injection E as <- _. unfold gotcha_get_priority in B. iba B as st2. ib B. injection B as <- _. apply init_kept in B0; [|auto]. unfold ready. rewrite (k_init _ B0). auto.
  - injection E as <- _. eapply ready_same; [| |exact R]; reflexivity.
  - injection E as <- _. eapply ready_same; [| |exact R]; reflexivity.
  - unfold ready in R. destruct (s_init st) eqn:Hi; [|injection E as <- _; unfold ready; rewrite Hi; auto]. iba E as st1. injection E as <- _.
    unfold dlopen_finish in B. iba B as [st2 c]. apply update_kept in B; [unfold ready; rewrite (k_init _ B); auto|]. unfold foreach_hash_entry in B0.
    eapply foreach_kept; [|exact R|exact B0]. intros k d s s' c' Ks Ec. unfold per_binding in Ec. destruct k; [|discriminate]. destruct d; [|discriminate].
    ib Ec. iba Ec as [s1 f]. apply prepare_kept in B2; [|auto]. destruct f; [|injection Ec as <- _; auto]. iba Ec as [t1 b1]. injection Ec as <- _. destruct B2; constructor; auto.
  - injection E as <- _. eapply ready_same; [| |exact R]; reflexivity.
Qed.
Lemma run_ready ops : forall st st' rs, ready st -> incl (named ops) W -> run e st ops = Ok (st', rs) -> ready st'.
Proof.
  induction ops as [|o r IH]; intros st st' rs R HN E; cbn [run] in E; [injection E as <- _; auto|]. iba E as [st1 x]. iba E as [st2 xs]. injection E as <- _.
  unfold named in HN. cbn [flat_map] in HN. eapply IH; [| |exact B0].
  - eapply step_ready; [exact R| |exact B]. intros n Hn. apply HN. apply in_or_app. left. unfold named in Hn. cbn [flat_map] in Hn. rewrite app_nil_r in Hn. exact Hn.
  - intros n Hn. apply HN. apply in_or_app. right. exact Hn.
Qed.
End Names.
