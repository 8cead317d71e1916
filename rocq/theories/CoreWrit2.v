(** Which pages are writable when GOTCHA stores to a slot, over whole histories: proofs for C65. *)
From Verif Require Import Base ListFacts HashModel HashProofs SpecHash HashTrace ElfModel SpecElf ElfProofs ToolModel CoreModel SpecCore SpecRun SpecSync SpecReg SpecWrit
  ToolProofs CoreMaps CoreRel CoreLib CoreStep CoreWrap CoreLoop CoreMain CoreEnv CoreSpec CoreFacts CoreHist CoreApi CoreApi2 CoreSync CoreSync2 CoreSync3 CoreMicro CoreMicro2 CoreProt CoreWrit.

Lemma load_other ld pg libs : (forall m, In m libs -> ld_image ld m pg = false) -> forall w, fold_left (load_lib ld) libs w pg <-> w pg.
Proof.
  induction libs as [|m r IH]; intros H w; [tauto|]. cbn [fold_left]. rewrite IH by (intros; apply H; right; auto). unfold load_lib. rewrite (H m) by (left; auto). tauto.
Qed.
Lemma load_own ld pg m libs : In m libs -> ld_image ld m pg = true -> (forall m', In m' libs -> ld_image ld m' pg = true -> m' = m) ->
  forall w, fold_left (load_lib ld) libs w pg <-> ld_rw ld m pg = true.
Proof.
  intros Hin Im U. assert (G : forall libs, (forall m', In m' libs -> ld_image ld m' pg = true -> m' = m) -> forall w, (w pg <-> ld_rw ld m pg = true) -> fold_left (load_lib ld) libs w pg <-> ld_rw ld m pg = true).
  { clear Hin U libs. induction libs as [|x r IH]; intros U w H; [exact H|]. cbn [fold_left]. apply IH; [intros; apply U; [right|]; auto|]. unfold load_lib. destruct (ld_image ld x pg) eqn:E; [|exact H].
    rewrite (U x) by (auto; left; auto). tauto. }
  induction libs as [|x r IH]; [destruct Hin|]. intros w. cbn [fold_left]. destruct Hin as [->|Hin].
  - apply G; [intros; apply U; [right|]; auto|]. unfold load_lib. rewrite Im. tauto.
  - apply IH; [auto|]. intros; apply U; [right|]; auto.
Qed.
Lemma unload_all ld pg libs : forall w, fold_left (unload_lib ld) libs w pg <-> w pg /\ forall m, In m libs -> ld_image ld m pg = false.
Proof.
  induction libs as [|m r IH]; intros w; cbn [fold_left]; [cbn; tauto|]. rewrite IH. unfold unload_lib. split.
  - intros [[A B] C]. split; [auto|]. intros x [<-|H]; auto.
  - intros [A B]. split; [split; [auto|apply B; left; auto]|]. intros; apply B; right; auto.
Qed.
Lemma run_perm_snoc ps ld ans e o : forall l st w st1 rs1, run e st l = Ok (st1, rs1) ->
  run_perm ps ld ans e st w (l ++ [o]) = match step e st1 o with Ok (st', _) => op_perm ps ld ans st1 st' o (run_perm ps ld ans e st w l) | Fault _ => run_perm ps ld ans e st w l end.
Proof.
  induction l as [|p l IH]; intros st w st1 rs1 E; cbn [run] in E.
  - injection E as <- _. cbn [app run_perm]. destruct (step e st o) as [[? ?]|]; reflexivity.
  - destruct (step e st p) as [[st0 x]|] eqn:Ep; [|discriminate E]. cbn [bind] in E. ib E. destruct a as [st2 xs]. injection E as <- _.
    cbn [app run_perm]. rewrite Ep. eapply IH; eauto.
Qed.
Lemma new_events_app st st' evs : p_log (s_p st') = p_log (s_p st) ++ evs -> new_events st st' = evs.
Proof. unfold new_events. intros ->. rewrite skipn_app, skipn_all, Nat.sub_diag. reflexivity. Qed.

Section Hist.
Context (k : Z) (Hk : 6 <= k < 63).
Notation ps := (2 ^ k).
Context (e : env) (Eps : e_ps e = ps) (ld : loader) (ans : nat -> bool) (Yes : forall n, ans n = true).
Context (maps : list lmap) (mem : Z -> Z) (ops : list op) (LY : layout ps e ld maps ops).
Notation all := (seen maps ops).
Notation w_after := (run_perm ps ld ans e (init_state maps mem) (start_perm ld maps)).
Notation cur := (maps_after maps).

Lemma all_steady : steady all.
Proof. apply nodup_steady. apply LY. Qed.
Lemma ps_big : 48 <= e_ps e.
Proof. rewrite Eps. transitivity (2 ^ 6); [vm_compute; discriminate|]. apply Z.pow_le_mono_r; lia. Qed.

Definition hist_ok (l : list op) (st : state) (w : perm) : Prop :=
  (s_init st = false /\ l_heap (s_l st) = [] /\ forall m pg, In m (cur l) -> ld_image ld m pg = true -> (w pg <-> ld_rw ld m pg = true)) \/
  (s_init st = true /\ exists f, pages_ok k e ld all (cur l) (s_l st) f w /\ tracked_in (seen maps l) f).

Lemma init_pages l st st1 w : hist_ok l st w -> inits e st st1 -> s_init st1 = true ->
  exists f, pages_ok k e ld all (cur l) (s_l st1) f w /\ tracked_in (seen maps l) f.
Proof.
  intros Q I I1. destruct I as [->|(I0 & _ & Eh & _ & _ & Et & _)].
  - destruct Q as [[I0 _]|[_ H]]; [congruence|auto].
  - destruct Q as [(_ & E0 & W)|[I2 _]]; [|congruence]. destruct (kmap_create (D := nat) (lkeys all) link_map_hash link_map_cmp lkey_eqb (e_ps e) 128 ps_big) as (t & Et' & K); [lia|].
    exists (fun _ => None). rewrite Et in Et'. injection Et' as <-. split; [|intros q i H; discriminate H]. split; [|split; [intros q i H; discriminate H|]].
    + constructor; [auto|discriminate|discriminate|]. intros i lb H. rewrite Eh, E0 in H. destruct i; discriminate H.
    + intros m pg Hm Hp. rewrite (W m pg Hm Hp). split; [auto|]. intros [H|[(i & lb & H & _) _]]; [auto|discriminate H].
Qed.

(** an operation of GOTCHA *)
Lemma op_pages l l2 st rs o st' r : ops = l ++ l2 -> run e (init_state maps mem) l = Ok (st, rs) -> hist_ok l st (w_after l) -> gotcha_op o -> step e st o = Ok (st', r) ->
  hist_ok l st' (events ps ans (length (p_prot (s_p st))) (w_after l) (new_events st st')) /\
  store_ok k e ld (cur l) (w_after l) (new_events st st').
Proof.
  intros El E Q G Es. assert (HND : apart all) by apply LY. pose proof all_steady as HST.
  destruct (lift e maps mem (fun _ _ _ => True)) with (ops := l) (st := st) (rs := rs) as (EM & _); auto.
  destruct (step_mics _ _ _ _ _ G Es) as [(-> & I0 & _)|(st1 & tr & I & I1 & M & _)].
  { rewrite (new_events_app st st []) by (rewrite app_nil_r; auto). cbn [events]. split; [exact Q|]. intros [|? ?] x v e2 H; discriminate H. }
  destruct (init_pages l st st1 _ Q I I1) as (f & P & T). assert (EP : s_p st1 = s_p st) by (destruct I as [->|(_ & _ & _ & _ & _ & _ & -> & _)]; auto).
  assert (D2 : forall m m' pg, In m (cur l) -> In m' (cur l) -> ld_image ld m pg = true -> ld_image ld m' pg = true -> m = m') by (intros m m' pg; apply (ly_disjoint _ _ _ _ _ LY l l2); auto).
  destruct (mics_pages k Hk e Eps ld all HND HST (cur l)) with (sn := seen maps l) (tr := tr) (st := st1) (st' := st') (f := f) (w := w_after l) as (f' & evs & A & B & C & D); auto.
  - intros m Hm. rewrite El. apply seen_mono, maps_seen. auto.
  - intros m Hm. apply (ly_desc _ _ _ _ _ LY l l2); auto.
  - intros m n x pg Hm. apply (ly_slots _ _ _ _ _ LY l l2); auto.
  - intros m Hm. apply maps_seen. auto.
  - rewrite EP. auto.
  - rewrite EP in A. rewrite (new_events_app _ _ _ A). split; [|auto]. right. split.
    + destruct (mics_frame _ _ _ _ M) as (-> & _). auto.
    + exists f'. split; [|auto]. eapply pages_ext; [|exact C]. intros pg. symmetry. apply events_yes. auto.
Qed.

Lemma run_pages l : forall l2, ops = l ++ l2 -> forall st rs, run e (init_state maps mem) l = Ok (st, rs) -> hist_ok l st (w_after l).
Proof.
  induction l as [|o l IH] using rev_ind; intros l2 El st rs E.
  { cbn in E. injection E as <- _. left. split; [auto|]. split; [auto|]. intros m pg Hm Hp. cbn [run_perm maps_after] in *. apply (load_own ld pg m maps); [auto|auto|].
    intros m' Hm' Hp'. apply (ly_disjoint _ _ _ _ _ LY [] l2 m' m pg); auto. }
  destruct (run_end _ _ _ _ _ _ E) as (st0 & rs0 & r & E0 & Es). rewrite <- app_assoc in El. cbn [app] in El. pose proof (IH _ El _ _ E0) as Q. rewrite (run_perm_snoc _ _ _ _ _ _ _ _ _ _ E0), Es.
  destruct (lift e maps mem (fun _ _ _ => True)) with (ops := l) (st := st0) (rs := rs0) as (EM & _); auto.
  assert (Elo : ops = (l ++ [o]) ++ l2) by (rewrite <- app_assoc; auto).
  assert (G : gotcha_op o -> cur (l ++ [o]) = cur l /\ seen maps (l ++ [o]) = seen maps l).
  { rewrite maps_after_app, seen_app. destruct o; cbn; try tauto; intros _; rewrite app_nil_r; auto. }
  assert (D : gotcha_op o \/ ~ gotcha_op o) by (destruct o; cbn; tauto). destruct D as [Go|Go].
  { destruct (op_pages l _ st0 rs0 o st r El E0 Q Go Es) as [H _]. destruct (G Go) as [G1 G2].
    assert (Eo : op_perm ps ld ans st0 st o (w_after l) = events ps ans (length (p_prot (s_p st0))) (w_after l) (new_events st0 st)) by (destruct o; cbn in Go; try tauto; reflexivity).
    rewrite Eo. unfold hist_ok in *. rewrite G1, G2. exact H. }
  (* what GOTCHA would ask for does not change with other libraries *)
  assert (PI : forall m pg, In m (cur l) -> In m (cur (l ++ [o])) -> (patchable ps ld (e_phdrs e (cur (l ++ [o]))) m pg <-> patchable ps ld (e_phdrs e (cur l)) m pg)).
  { intros m pg H1 H2. unfold patchable, got_page. rewrite (ly_phdrs _ _ _ _ _ LY (l ++ [o]) l2 l (o :: l2) m Elo El H2 H1). tauto. }
  assert (Dis : forall m m' pg, In m (cur (l ++ [o])) -> In m' (cur (l ++ [o])) -> ld_image ld m pg = true -> ld_image ld m' pg = true -> m = m') by (intros m m' pg; apply (ly_disjoint _ _ _ _ _ LY (l ++ [o]) l2); auto).
  assert (Dis0 : forall m m' pg, In m (cur l) -> In m' (cur l) -> ld_image ld m pg = true -> ld_image ld m' pg = true -> m = m') by (intros m m' pg; apply (ly_disjoint _ _ _ _ _ LY l (o :: l2)); auto).
  assert (TS : forall f, tracked_in (seen maps l) f -> tracked_in (seen maps (l ++ [o])) f) by (intros f T q i H; destruct (T q i H) as (m & A & B); exists m; split; [apply seen_mono|]; auto).
  (* it is enough to look at the pages of libraries *)
  assert (Red : forall w', s_l st = s_l st0 -> s_init st = s_init st0 ->
    (forall m pg, In m (cur (l ++ [o])) -> ld_image ld m pg = true -> (In m (cur l) /\ (w' pg <-> w_after l pg)) \/ (~ In (key_of m) (map key_of (seen maps l)) /\ (w' pg <-> ld_rw ld m pg = true))) ->
    hist_ok (l ++ [o]) st w').
  { intros w' EL EI H. destruct Q as [(I0 & H0 & W)|(I0 & f & (T & P & W) & TR)].
    - left. split; [congruence|]. split; [congruence|]. intros m pg Hm Hp. destruct (H m pg Hm Hp) as [[A B]|[_ B]]; rewrite B; [auto|tauto].
    - right. split; [congruence|]. exists f. rewrite EL. split; [|auto]. split; [auto|]. split; [auto|]. intros m pg Hm Hp. destruct (H m pg Hm Hp) as [[A B]|[N B]].
      + rewrite B, (W m pg A Hp), (PI m pg A Hm). tauto.
      + rewrite B. split; [auto|]. intros [H1|[(i & lb & F & _) _]]; [auto|]. exfalso. apply N. destruct (TR _ _ F) as (m0 & M1 & M2). rewrite <- M2. apply in_map. auto. }
  assert (LM : cur (l ++ [o]) = maps_after (cur l) [o]) by (apply maps_after_app).
  destruct o as [ubs tool|t v|t|fl|libs mm| |keep mm]; cbn in Go; try tauto; cbn [step] in Es; injection Es as <- _.
  - (* OFilter *)
    rewrite <- app_nil_r in LM. cbn [op_perm]. rewrite (new_events_app st0 _ []) by (rewrite app_nil_r; reflexivity). cbn [events]. apply Red; [reflexivity|reflexivity|]. cbn in LM. rewrite app_nil_r in LM. intros m pg Hm Hp. left. rewrite LM in Hm. tauto.
  - cbn [op_perm]. cbn in LM. apply Red; [reflexivity|reflexivity|]. intros m pg Hm Hp.
    assert (NN : forall m', In m' libs -> ~ In (key_of m') (map key_of (seen maps l))).
    { intros m' H' Hin. pose proof (ly_once _ _ _ _ _ LY) as ND. rewrite El, seen_app, map_app in ND. cbn [flat_map op_libs] in ND. rewrite map_app in ND.
      clear -ND H' Hin. revert Hin ND. generalize (map key_of (seen maps l)). intros L. induction L as [|x L IH]; cbn; [tauto|]. intros [->|H] N; inversion N as [|? ? N1 N2]; subst; [|auto].
      apply N1. apply in_or_app. right. apply in_or_app. left. apply in_map. auto. }
    rewrite LM in Hm. destruct (in_app_or _ _ _ Hm) as [H|H].
    + left. split; [auto|]. apply load_other. intros m' H'. destruct (ld_image ld m' pg) eqn:E1; [|auto]. exfalso.
      assert (m' = m) as -> by (eapply (Dis m' m pg); [| |auto|auto]; rewrite LM; auto using in_or_app). apply (NN m H'). apply in_map. apply maps_seen. auto.
    + right. split; [auto|]. apply load_own; [auto|auto|]. intros m' H' E1. eapply (Dis m' m pg); [| |auto|auto]; rewrite LM; auto using in_or_app.
  - cbn [op_perm]. cbn in LM. apply Red; [reflexivity|reflexivity|]. intros m pg Hm Hp. left. rewrite LM in Hm. apply filter_In in Hm. destruct Hm as [H1 H2]. split; [auto|].
    rewrite unload_all. split; [tauto|]. intros Hw. split; [auto|]. intros m' H'. apply filter_In in H'. rewrite EM in H'. destruct H' as [H3 H4]. destruct (ld_image ld m' pg) eqn:E1; [|auto]. exfalso.
    assert (m' = m) as -> by (eapply (Dis0 m' m pg); auto). rewrite H2 in H4. discriminate H4.
Qed.

Lemma stores_pages st rs o st' r : run e (init_state maps mem) ops = Ok (st, rs) -> gotcha_op o -> step e st o = Ok (st', r) ->
  forall e1 x v e2, new_events st st' = e1 ++ PStore x v :: e2 ->
  exists m n, In m (cur ops) /\ slot relocs m n x /\
    forall pg, touches ps x pg -> (events ps ans (length (p_prot (s_p st))) (w_after ops) e1 pg <-> ld_rw ld m pg = true \/ patchable ps ld (e_phdrs e (cur ops)) m pg).
Proof.
  intros E G Es e1 x v e2 Ev. pose proof (run_pages ops [] (eq_sym (app_nil_r _)) _ _ E) as Q.
  destruct (op_pages ops [] st rs o st' r (eq_sym (app_nil_r _)) E Q G Es) as [_ S]. destruct (S e1 x v e2 Ev) as (m & n & A & B & C). exists m, n. split; [auto|]. split; [auto|].
  intros pg Hp. rewrite (events_yes ps ans Yes). auto.
Qed.
End Hist.
