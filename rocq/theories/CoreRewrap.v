(** A binding passed to gotcha_wrap a second time with the same wrapper and handle: what becomes of its wrappee. *)
From Verif Require Import Base ListFacts HashModel ElfModel ToolModel CoreModel SpecCore SpecRun HashProofs HashTrace ToolProofs CoreMaps CoreRel CoreStep CoreLoop CoreMain CoreSpec CoreHist CoreApi CoreMicro.
From Coq Require Import Permutation.

(** the walk stops at the latest at the first binding with that wrapper *)
Lemma order_at_most bs w p i : wrp (b_ib bs) i = w -> forall c1 c2 fuel cur pos,
  lseg (inx (b_ib bs)) (Some cur) (c1 ++ i :: c2) -> order_loop fuel bs w p cur = Ok (Some pos) -> exists ca cb, c1 ++ [i] = ca ++ pos :: cb.
Proof.
  intros Hw. induction c1 as [|j c1 IH]; intros c2 [|fuel] cur pos L E; cbn [order_loop] in E; try discriminate E; cbn [app lseg] in L; destruct L as (A & q & N & L); injection A as ->; ib E;
    unfold deref in B; destruct (nth_error (b_ib bs) _) as [c|] eqn:Nc; try discriminate B; injection B as <-; unfold inx in N; rewrite Nc in N; injection N as N; rewrite N in E.
  - destruct q as [nx|]; [|injection E as <-; exists [], []; auto]. ib E. destruct (_ <? _); [injection E as <-; exists [], []; auto|].
    unfold wrp in Hw. rewrite Nc in Hw. rewrite Hw, Z.eqb_refl in E. discriminate E.
  - destruct q as [nx|]; [|injection E as <-; exists [], (c1 ++ [i]); auto]. ib E. destruct (_ <? _); [injection E as <-; exists [], (c1 ++ [i]); auto|].
    destruct (_ =? _); [discriminate E|]. destruct (IH c2 fuel nx pos) as (ca & cb & H); [|exact E|exists (j :: ca), cb; cbn; rewrite H; auto].
    exact L.
Qed.

Lemma links_cut ibs i c2 o : forall ca cb, links ibs (ca ++ cb ++ i :: c2) o -> links ibs cb (Some (wrp ibs i)).
Proof.
  induction ca as [|a ca IH]; cbn [app]; [|intros cb [_ H]; auto].
  induction cb as [|b cb IHb]; cbn [app links]; [auto|]. intros [A B]. split; [|auto]. rewrite A. destruct cb; reflexivity.
Qed.
Lemma lseg_ext nx nx' l : (forall i, In i l -> nx' i = nx i) -> forall p, lseg nx p l -> lseg nx' p l.
Proof. induction l as [|i r IH]; intros H p; cbn [lseg]; [auto|]. intros (-> & q & A & B). split; [auto|]. exists q. rewrite H by (left; auto). split; [auto|]. apply IH; [intros; apply H; right; auto|auto]. Qed.

Definition first_of (w : Z) (ibs : list ibind) (l : list nat) : wptr := match l with [] => Ptr w | j :: _ => Ptr (wrp ibs j) end.

Lemma rewrap_place bs tools stk orig ch n w h i ib c1 c2 tbl bs1 p bs2 r :
  let b := length (b_ib bs) in
  brel bs tools stk ch [] -> wrel bs orig ch [] -> ch n = c1 ++ i :: c2 -> nth_error (b_ib bs) i = Some ib -> ib_user ib = mkUB n w h ->
  b_ib bs1 = b_ib bs ++ [mkIB tbl (mkUB n w h) None Uninit] -> b_fn bs1 = b_fn bs ->
  (forall k, b_handles bs1 k = if k =? h then Some b else b_handles bs k) ->
  place_binding bs1 b n w p = Ok (bs2, r) ->
  need_lookup r = false /\ b_handles bs2 = b_handles bs1 /\ map buser (b_ib bs2) = map buser (b_ib bs1) /\
  (wee (b_ib bs2) b = Some Uninit \/ exists ca cb, c1 = ca ++ cb /\ wee (b_ib bs2) b = Some (first_of w (b_ib bs1) cb) /\ links (b_ib bs2) cb (Some w)).
Proof.
  intros b R W Ec Ei Eu Hib Hfn Hh E.
  assert (Hch : forall m j, In j (ch m) -> (j < b)%nat).
  { intros m j Hj. pose proof (br_name _ _ _ _ _ R m j Hj) as N. unfold name_of in N. destruct (nth_error (b_ib bs) j) eqn:X; [|discriminate N]. apply nth_error_Some_lt in X. exact X. }
  assert (Old : forall j, (j < b)%nat -> nth_error (b_ib bs1) j = nth_error (b_ib bs) j) by (intros j Hj; rewrite Hib; apply nth_error_app1; auto).
  assert (New : nth_error (b_ib bs1) b = Some (mkIB tbl (mkUB n w h) None Uninit)) by (rewrite Hib, nth_error_app2 by (unfold b; auto); unfold b; rewrite Nat.sub_diag; reflexivity).
  assert (Hin : In i (ch n)) by (rewrite Ec; apply in_or_app; right; left; auto).
  assert (Wi : wrp (b_ib bs1) i = w) by (unfold wrp; rewrite Old, Ei, Eu by (eapply Hch; eauto); reflexivity).
  assert (Hhi : b_handles bs h = Some i) by (pose proof (wr_handles _ _ _ _ W i ib Ei) as X; rewrite Eu in X; exact X).
  assert (Seg : lseg (inx (b_ib bs1)) (hd_error (ch n)) (c1 ++ i :: c2)).
  { rewrite <- Ec. eapply lseg_ext; [|apply (br_chain _ _ _ _ _ R n)]. intros j Hj. unfold inx. rewrite Old by eauto. reflexivity. }
  assert (Lk : forall ca cb, c1 = ca ++ cb -> links (b_ib bs1) cb (Some w)).
  { intros ca cb X. pose proof (wr_links _ _ _ _ W n) as L. rewrite Ec, X, <- app_assoc in L. apply links_cut in L.
    assert (Y : forall j, In j cb -> In j (ch n)) by (intros j Hj; rewrite Ec, X; apply in_or_app; left; apply in_or_app; auto).
    assert (Wi' : wrp (b_ib bs) i = w) by (unfold wrp; rewrite Ei, Eu; reflexivity). rewrite Wi' in L.
    eapply links_ext; [| |exact L]; intros j Hj; unfold wee, wrp; rewrite Old by eauto; reflexivity. }
  pose proof (br_nodup _ _ _ _ _ R n) as ND. rewrite Ec in ND.
  assert (Ext : forall l ca cb, c1 = ca ++ cb -> map buser l = map buser (b_ib bs1) -> (forall j, In j cb -> wee l j = wee (b_ib bs1) j) -> links l cb (Some w)).
  { intros l ca cb X M H. eapply links_ext; [exact H| |eapply Lk; eauto]. intros. apply buser_wrp. auto. }
  unfold place_binding in E. rewrite Hfn, (smap_lookup _ _ n (br_fn _ _ _ _ _ R)) in E. cbn [bind] in E.
  destruct (hd_error (ch n)) as [hd|] eqn:Ehd; [|rewrite Ec in Ehd; destruct c1; discriminate Ehd].
  iba E as hp. destruct (hp <? p).
  - (* in front *)
    iba E as bs3. injection E as <- <-. cbn [need_lookup]. unfold insert_at_head in B0.
    assert (Hne : hd <> b). { intros ->. assert (X : In b (ch n)) by (destruct (ch n); [discriminate Ehd|injection Ehd as ->; left; auto]). apply Hch in X. lia. }
    assert (U : nth_error (b_ib (set_ib (upd (b_ib bs1) b (set_inext (Some hd))) bs1)) b = Some (mkIB tbl (mkUB n w h) (Some hd) Uninit)).
    { cbn [b_ib set_ib]. rewrite nth_error_upd, Nat.eqb_refl, New. reflexivity. }
    rewrite (deref_Ok _ _ _ U) in B0. cbn [bind ib_user ub_handle ub_name] in B0. ib B0.
    assert (V : nth_error (b_ib bs1) hd = Some a).
    { unfold deref in B1. cbn [b_ib set_ib] in B1. rewrite nth_error_upd in B1. destruct (Nat.eqb_spec b hd); [congruence|]. destruct (nth_error (b_ib bs1) hd); congruence. }
    iba B0 as bs4. iba B0 as [t0 v0]. ib B0. injection B0 as <-. unfold set_wrappee in B2. cbn [b_handles set_ib] in B2. rewrite Hh, Z.eqb_refl in B2. injection B2 as <-.
    cbn [b_handles set_fn set_ib b_ib]. split; [auto|]. split; [auto|].
    assert (M : map buser (upd (upd (b_ib bs1) b (set_inext (Some hd))) b (set_iwrappee (Ptr (ub_wrapper (ib_user a))))) = map buser (b_ib bs1)) by (rewrite buser_wrappee, buser_next; auto).
    split; [exact M|].
    right. exists [], c1. split; [auto|]. split.
    + rewrite wee_upd_wrappee, Nat.eqb_refl. cbn [b_ib set_ib] in U. rewrite U. cbn [option_map]. f_equal.
      rewrite Ec in Ehd. destruct c1 as [|j c1]; cbn [app hd_error] in Ehd; injection Ehd as ->; cbn [first_of]; f_equal.
      * unfold wrp in Wi. rewrite V in Wi. exact Wi.
      * unfold wrp. rewrite V. reflexivity.
    + eapply (Ext _ []); [reflexivity|exact M|]. intros j Hj. assert (X : (j < b)%nat) by (apply (Hch n); rewrite Ec; apply in_or_app; auto).
      rewrite wee_upd_wrappee, wee_upd_next. destruct (Nat.eqb_spec b j); [lia|reflexivity].
  - iba E as o. destruct o as [pos|].
    2:{ injection E as <- <-. cbn [need_lookup]. split; [auto|]. split; [auto|]. split; [auto|]. left. unfold wee. rewrite New. reflexivity. }
    iba E as bs3. injection E as <- <-. cbn [need_lookup].
    destruct (order_at_most bs1 w p i Wi c1 c2 _ _ _ Seg B0) as (ca & cb & Ep).
    assert (Pin : In pos (ch n)). { rewrite Ec. change (i :: c2) with ([i] ++ c2). rewrite app_assoc, Ep, <- app_assoc. apply in_or_app. right. left. auto. }
    pose proof (Hch _ _ Pin) as Plt.
    unfold insert_after_pos in B1. rewrite (deref_Ok _ _ _ New) in B1. cbn [bind ib_user ub_handle ub_wrapper] in B1. iba B1 as pb.
    unfold deref in B2. destruct (nth_error (b_ib bs1) pos) as [pb'|] eqn:Np; [|discriminate B2]. injection B2 as ->.
    iba B1 as bs4. unfold set_wrappee in B2. rewrite Hh, Z.eqb_refl in B2. injection B2 as <-. iba B1 as bs5.
    unfold set_wrappee in B2. cbn [b_handles set_ib b_ib] in B2. rewrite Hh in B2.
    assert (Hpb : nth_error (b_ib bs) pos = Some pb) by (rewrite <- Old by auto; exact Np).
    pose proof (wr_handles _ _ _ _ W pos pb Hpb) as HP.
    destruct (ub_handle (ib_user pb) =? h) eqn:Eh.
    + (* behind itself *)
      injection B2 as <-. iba B1 as pb2. injection B1 as <-. cbn [b_handles set_ib b_ib].
      assert (M : forall u v, map buser (upd (upd (upd (upd (b_ib bs1) b (set_iwrappee (ib_wrappee pb))) b (set_iwrappee (Ptr w))) b (set_inext u)) pos (set_inext v)) = map buser (b_ib bs1))
        by (intros; rewrite !buser_next, !buser_wrappee; auto).
      split; [auto|]. split; [auto|]. split; [apply M|]. right. exists c1, []. rewrite app_nil_r. split; [auto|]. split; [|exact I].
      rewrite !wee_upd_next, wee_upd_wrappee, Nat.eqb_refl, nth_error_upd, Nat.eqb_refl, New. reflexivity.
    + rewrite HP in B2. injection B2 as <-. iba B1 as pb2. injection B1 as <-. cbn [b_handles set_ib b_ib].
      set (l2 := upd (upd (b_ib bs1) b (set_iwrappee (ib_wrappee pb))) pos (set_iwrappee (Ptr w))).
      assert (M : map buser (upd (upd l2 b (set_inext (ib_next pb2))) pos (set_inext (Some b))) = map buser (b_ib bs1))
        by (unfold l2; rewrite !buser_next, !buser_wrappee; auto).
      split; [auto|]. split; [auto|]. split; [exact M|]. right.
      (* pos is strictly in front of i *)
      assert (Hpi : pos <> i). { intros ->. rewrite Ei in Hpb. injection Hpb as <-. rewrite Eu in Eh. cbn in Eh. rewrite Z.eqb_refl in Eh. discriminate Eh. }
      destruct (exists_last (l := pos :: cb)) as (cc & z & Ez); [discriminate|]. rewrite Ez, app_assoc in Ep. apply app_inj_tail in Ep. destruct Ep as [Ep <-].
      destruct cc as [|z cc]; cbn [app] in Ez; injection Ez as -> Ez; [congruence|]. 
      rewrite Ep in ND. exists (ca ++ [z]), cc. split; [rewrite Ep, <- app_assoc; reflexivity|].
      assert (Zn : ~ In z cc). { rewrite <- app_assoc in ND. apply NoDup_remove_2 in ND. intros X. apply ND. apply in_or_app. right. apply in_or_app. auto. }
      split.
      * rewrite !wee_upd_next. unfold l2. rewrite wee_upd_wrappee. destruct (Nat.eqb_spec z b); [lia|]. rewrite wee_upd_wrappee, Nat.eqb_refl, New. cbn [option_map]. f_equal.
        assert (L : links (b_ib bs1) (z :: cc) (Some w)) by (eapply Lk; exact Ep). destruct L as [L _]. unfold wee in L. rewrite Np in L. cbn [option_map] in L. injection L as L.
        rewrite L. destruct cc; reflexivity.
      * eapply (Ext _ (ca ++ [z])); [rewrite Ep, <- app_assoc; reflexivity|exact M|]. intros j Hj.
        assert (X : (j < b)%nat) by (apply (Hch n); rewrite Ec, Ep; apply in_or_app; left; apply in_or_app; right; right; auto).
        rewrite !wee_upd_next. unfold l2. rewrite !wee_upd_wrappee. destruct (Nat.eqb_spec z j) as [->|]; [contradiction|]. destruct (Nat.eqb_spec b j); [lia|reflexivity].
Qed.

Lemma links_wired_on st o : forall l s, Forall2 (fun i x => exists ib, nth_error (b_ib (s_b st)) i = Some ib /\ ub_wrapper (ib_user ib) = en_wrapper x /\ b_handles (s_b st) (en_handle x) = Some i) l s ->
  links (b_ib (s_b st)) l o -> wired st s o.
Proof.
  induction 1 as [|i x l s Hx FS IH]; intros L; cbn [wired]; [auto|]. destruct L as [L1 L2]. split; [|auto].
  destruct Hx as (ib & E & W & H). unfold gotcha_get_wrappee. rewrite H, (deref_Ok _ _ _ E). cbn [bind].
  unfold wee in L1. rewrite E in L1. cbn in L1. injection L1 as L1. rewrite L1. destruct FS as [|j y l s Hy FS]; [destruct o; reflexivity|].
  destruct Hy as (jb & E2 & W2 & _). unfold wrp. rewrite E2, W2. reflexivity.
Qed.

Lemma user_installed e ops u : In u (user_binds ops) -> exists x, In x (installed e ops (ub_name u)) /\ en_wrapper x = ub_wrapper u /\ en_handle x = ub_handle u.
Proof.
  intros H. assert (Hin : In u (map trip (installs e false false ops))).
  { eapply Permutation_in; [apply Permutation_sym, installs_perm|]. apply in_or_app. auto. }
  apply in_map_iff in Hin. destruct Hin as ([n x] & E & Hin). subst u. exists x. cbn. split; [|auto]. unfold installed. apply in_sel. auto.
Qed.

(** gotcha_wrap of one binding that is in the chain already *)
Lemma rewrap_tool e rec F st a ch n w h tool i ib c1 c2 st' c : srel e (exports e) relocs F st a ch [] -> wrel (s_b st) (a_orig a) ch [] -> ch n = c1 ++ i :: c2 ->
  nth_error (b_ib (s_b st)) i = Some ib -> ib_user ib = mkUB n w h -> (n = n_main -> a_main a = true) ->
  wrap_tool e rec st [mkUB n w h] tool = Ok (st', c) ->
  let b := length (b_ib (s_b st)) in
  (forall k, b_handles (s_b st') k = if k =? h then Some b else b_handles (s_b st) k) /\
  (exists tbl, map buser (b_ib (s_b st')) = map buser (b_ib (s_b st)) ++ [(tbl, mkUB n w h)]) /\
  (wee (b_ib (s_b st')) b = Some Uninit \/ exists ca cb, c1 = ca ++ cb /\ wee (b_ib (s_b st')) b = Some (first_of w (b_ib (s_b st)) cb) /\ links (b_ib (s_b st')) cb (Some w)).
Proof.
  intros SR W Ec Ei Eu Hm E b. unfold wrap_tool in E. iba E as [ts i0]. iba E as [bs tbl]. iba E as bt. iba E as [st1 pr]. iba E as st2. injection E as <- _.
  unfold add_binding_to_tool in B0. cbn [s_b set_l set_b b_tools set_btools set_handles b_ib b_handles b_tables fill_bindings] in B0. iba B0 as ht. iba B0 as ht2. iba B0 as t. injection B0 as <- <-.
  assert (Hbt : bt_start bt = b).
  { unfold deref in B1. cbn [b_tables] in B1. rewrite nth_error_app2, Nat.sub_diag in B1 by auto. cbn in B1. injection B1 as <-. reflexivity. }
  cbn [length wrap_loop] in B2. rewrite Hbt in B2. iba B2 as [st3 pr3]. injection B2 as <- <-.
  unfold wrap_one in B0. iba B0 as [st4 rr]. unfold rewrite_wrapper_orders in B2. cbn [s_b set_b b_ib] in B2.
  assert (Nb : nth_error (b_ib (s_b st) ++ [mkIB (length (b_tables (s_b st))) (mkUB n w h) None Uninit]) b = Some (mkIB (length (b_tables (s_b st))) (mkUB n w h) None Uninit))
    by (unfold b; rewrite nth_error_app2, Nat.sub_diag by auto; reflexivity).
  rewrite (deref_Ok _ _ _ Nb) in B2. cbn [bind ib_user ub_name ub_wrapper] in B2. iba B2 as ip. iba B2 as st5. iba B2 as [bs6 r6]. injection B2 as <- <-.
  assert (E5 : s_b st5 = mkBS (mkTS (upd (ts_heap ts) i0 (set_tbinding (Some (length (b_tables (s_b st)))))) (ts_head ts)) (b_tables (s_b st) ++ [mkBT i0 (length (b_ib (s_b st))) (Z.of_nat 1) ht2 (t_binding t) (b_all (s_b st))]) (Some (length (b_tables (s_b st))))
     (b_ib (s_b st) ++ [mkIB (length (b_tables (s_b st))) (mkUB n w h) None Uninit]) (fupd (null_handles [mkUB n w h] (b_handles (s_b st))) h (Some b)) (b_fn (s_b st)) (b_nf (s_b st))).
  { unfold wrap_main in B8. destruct (libc_strcmp n n_main =? 0) eqn:Em; cbn [andb] in B8; [|injection B8 as <-; reflexivity].
    apply Z.eqb_eq, libc_strcmp_eq0 in Em. cbn [s_main set_b set_l] in B8. rewrite (sr_main _ _ _ _ _ _ _ _ SR), (Hm Em) in B8. cbn [negb] in B8. injection B8 as <-. reflexivity. }
  pose proof (sr_b _ _ _ _ _ _ _ _ SR) as R.
  destruct (rewrap_place (s_b st) _ _ _ ch n w h i ib c1 c2 (length (b_tables (s_b st))) (s_b st5) ip bs6 r6 R W Ec Ei Eu) as (A1 & A2 & A3 & A4).
  { rewrite E5. reflexivity. } { rewrite E5. reflexivity. }
  { intros k. rewrite E5. cbn [b_handles null_handles fold_left]. unfold fupd. cbn [ub_handle]. destruct (Z.eqb_spec k h); reflexivity. }
  { exact B9. }
  cbn [s_b set_b] in B0. iba B0 as ib6. rewrite A1 in B0. cbn [bind] in B0.
  assert (E3 : s_b st3 = bs6). { destruct (need_binding r6); [iba B0 as t1; iba B0 as t2; injection B0 as <- _; reflexivity|injection B0 as <- _; reflexivity]. }
  assert (E2 : s_b st2 = bs6).
  { destruct (pr_new pr3); [|injection B3 as <-; exact E3]. unfold update_all_library_gots in B3. iba B3 as [l p]. injection B3 as <-. exact E3. }
  rewrite E2. split; [|split].
  - intros k. rewrite A2, E5. cbn [b_handles null_handles fold_left]. unfold fupd. cbn [ub_handle]. destruct (Z.eqb_spec k h); reflexivity.
  - exists (length (b_tables (s_b st))). rewrite A3, E5. cbn [b_ib]. rewrite map_app. reflexivity.
  - destruct A4 as [A4|(ca & cb & X & Y & Z)]; [auto|]. right. exists ca, cb. split; [auto|]. split; [|auto]. etransitivity; [exact Y|]. rewrite E5. cbn [b_ib]. destruct cb as [|j cb]; [reflexivity|]. cbn [first_of]. f_equal. f_equal.
    unfold wrp. rewrite nth_error_app1; [reflexivity|]. assert (Hj : In j (ch n)) by (rewrite Ec, X; apply in_or_app; left; apply in_or_app; right; left; auto).
    pose proof (br_name _ _ _ _ _ R n j Hj) as N. unfold name_of in N. destruct (nth_error (b_ib (s_b st)) j) eqn:Q; [|discriminate N]. apply nth_error_Some_lt in Q. exact Q.
Qed.

Lemma rewrap_law e maps mem ops st rs n w h tool st' r : process_ok e maps ops -> fresh e ops -> In (mkUB n w h) (user_binds ops) ->
  run e (init_state maps mem) ops = Ok (st, rs) -> step e st (OWrap [mkUB n w h] tool) = Ok (st', r) ->
  exists l1 x l2, stack e maps ops n = l1 ++ x :: l2 /\ en_wrapper x = w /\ en_handle x = h /\
    (gotcha_get_wrappee st' h = Ok Uninit \/ exists la lb, l1 = la ++ lb /\ wired st' (x :: lb) (Some w)).
Proof.
  intros P F U E Es. destruct (user_installed e ops _ U) as (x & Hx & Hw & Hh). cbn [ub_name ub_wrapper ub_handle] in Hx, Hw, Hh.
  apply (Permutation_in _ (Permutation_sym (stacks_installed e (exports e) maps ops n))) in Hx. fold (history e maps ops) in Hx. fold (stack e maps ops n) in Hx.
  destruct (run_hist e maps mem ops P F) as (st0 & E0 & R). rewrite E in E0. injection E0 as <- _.
  destruct (in_split _ _ Hx) as (l1 & l2 & El). exists l1, x, l2. split; [exact El|]. split; [auto|]. split; [auto|].
  destruct R as [R|[ch SR]]; [unfold stack in Hx; rewrite (pr_as _ _ _ _ _ R) in Hx; destruct Hx|].
  pose proof (sr_b _ _ _ _ _ _ _ _ SR) as B. pose proof (sr_w _ _ _ _ _ _ _ _ SR I) as W. pose proof (br_stack _ _ _ _ _ B n) as FS. fold (stack e maps ops n) in FS. rewrite El in FS.
  apply Forall2_app_inv_r in FS. destruct FS as (c1 & cr & F1 & F2 & Ec). inversion F2 as [|i ? c2 ? Ex F3 X1 X2]; subst cr.
  destruct (entry_ib _ _ _ Ex) as (ib & Ei & Iw & Ih). assert (Hin : In i (ch n)) by (rewrite Ec; apply in_or_app; right; left; auto).
  pose proof (br_name _ _ _ _ _ B n i Hin) as Nm. unfold name_of in Nm. rewrite Ei in Nm. injection Nm as Nm.
  assert (Eu : ib_user ib = mkUB n w h). { destruct (ib_user ib) as [a1 a2 a3]. cbn [ub_name ub_wrapper ub_handle] in *. congruence. }
  cbn [step] in Es. iba Es as [st1 c]. injection Es as -> _. unfold gotcha_wrap in B0. cbn [wrap_n] in B0. unfold wrap_body at 1, gotcha_init at 1 in B0. rewrite (sr_init _ _ _ _ _ _ _ _ SR) in B0. cbn [bind] in B0.
  assert (Hm : n = n_main -> a_main (history e maps ops) = true).
  { intros ->. apply (main_flag_iff place e (exports e) maps ops). unfold main_bound. apply in_map_iff. eexists. split; [|exact U]. reflexivity. }
  destruct (rewrap_tool e _ True st _ ch n w h tool i ib c1 c2 st' c SR W Ec Ei Eu Hm B0) as (A1 & (tbl & A2) & A3).
  set (b := length (b_ib (s_b st))) in *.
  assert (Hb : b_handles (s_b st') h = Some b) by (rewrite A1, Z.eqb_refl; auto).
  assert (Lb : length (b_ib (s_b st')) = S b). { rewrite <- (map_length buser), A2, app_length, map_length. cbn. unfold b. lia. }
  destruct (nth_error_lt_Some (b_ib (s_b st')) b) as [bb Ebb]; [lia|].
  destruct A3 as [A3|(ca & cb & Q1 & Q2 & Q3)].
  { left. unfold gotcha_get_wrappee. rewrite Hb, (deref_Ok _ _ _ Ebb). cbn [bind]. unfold wee in A3. rewrite Ebb in A3. cbn in A3. congruence. }
  right. subst c1. apply Forall2_app_inv_l in F1. destruct F1 as (la & lb & G1 & G2 & G3). exists la, lb. split; [auto|].
  assert (Hcb : Forall2 (fun i x => exists ib, nth_error (b_ib (s_b st')) i = Some ib /\ ub_wrapper (ib_user ib) = en_wrapper x /\ b_handles (s_b st') (en_handle x) = Some i) cb lb).
  { assert (Pt : forall j z, In j cb -> entry_of (s_b st) j = Some z -> exists ib, nth_error (b_ib (s_b st')) j = Some ib /\ ub_wrapper (ib_user ib) = en_wrapper z /\ b_handles (s_b st') (en_handle z) = Some j).
    2:{ clear -G2 Pt. induction G2 as [|j z cc lc Ez G2 IH]; constructor; [apply Pt; [left; auto|auto]|]. apply IH. intros. apply Pt; [right; auto|auto]. }
    intros j z Hj Ey.
    destruct (entry_ib _ _ _ Ey) as (jb & Ej & Jw & Jh). pose proof (nth_error_Some_lt _ _ _ Ej) as Lj.
    destruct (map_nth_eq buser (b_ib (s_b st) ++ [mkIB tbl (mkUB n w h) None Uninit]) (b_ib (s_b st')) j jb) as (jb' & Ej' & Eb').
    { rewrite map_app. exact A2. } { rewrite nth_error_app1 by auto. exact Ej. }
    exists jb'. split; [auto|]. unfold buser in Eb'. injection Eb' as _ Eb'. rewrite Eb'. split; [auto|]. rewrite A1.
    pose proof (wr_handles _ _ _ _ W j jb Ej) as Hj0. rewrite Jh in Hj0. destruct (Z.eqb_spec (en_handle z) h) as [Eq|]; [|exact Hj0].
    exfalso. pose proof (wr_handles _ _ _ _ W i ib Ei) as Hi. rewrite Eu in Hi. cbn [ub_handle] in Hi. rewrite Eq, Hi in Hj0. injection Hj0 as <-.
    pose proof (br_nodup _ _ _ _ _ B n) as ND. rewrite Ec in ND. apply NoDup_remove_2 in ND. apply ND. apply in_or_app. left. apply in_or_app. right. auto. }
  cbn [wired]. split; [|eapply links_wired_on; [exact Hcb|exact Q3]].
  rewrite Hh. unfold gotcha_get_wrappee. rewrite Hb, (deref_Ok _ _ _ Ebb). cbn [bind]. unfold wee in Q2. rewrite Ebb in Q2. cbn in Q2. injection Q2 as Q2. rewrite Q2.
  destruct G2 as [|j z cb lb Ey G2]; [reflexivity|]. cbn [first_of]. destruct (entry_ib _ _ _ Ey) as (jb & Ej & Jw & _). unfold wrp. rewrite Ej, Jw. reflexivity.
Qed.
