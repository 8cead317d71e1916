(** Proofs about arrays of bindings given by reference. *)
From Verif Require Import Base ListFacts HashModel HashProofs SpecHash HashTrace ElfModel SpecElf ToolModel CoreModel SpecCore SpecRun SpecSync
  ToolProofs CoreMaps CoreRel CoreLib CoreStep CoreWrap CoreLoop CoreMain CoreEnv CoreSpec CoreFacts CoreHist CoreApi CoreApi2 CoreSync CoreSync2 CoreSync3 CoreStall CoreApi3 CoreDl
  ArrModel SpecArr.

Lemma repoint_none a i u : forall of ibs, ~ In (Some (a, i)) of -> repoint a i u of ibs = ibs.
Proof.
  induction of as [|o of IH]; intros [|b ibs] H; cbn [repoint]; try reflexivity. rewrite IH by (intros X; apply H; right; exact X).
  destruct o as [[a' i']|]; cbn [points]; [|reflexivity]. destruct (Nat.eqb_spec a' a) as [->|]; [|reflexivity]. destruct (Nat.eqb_spec i' i) as [->|]; [|reflexivity].
  destruct H. left. reflexivity.
Qed.
Lemma set_ib_same st : set_b (set_ib (b_ib (s_b st)) (s_b st)) st = st.
Proof. destruct st as [? ? [] ? ?]. reflexivity. Qed.

Lemma pad_In of st x : In (Some x) (pad of st) -> In (Some x) of.
Proof. unfold pad. intros H. apply in_app_or in H. destruct H as [H|H]; [exact H|]. apply repeat_spec in H. discriminate H. Qed.

Lemma vrun_copied e : forall ops before v, arrays_kept (before ++ ops) ->
  (forall a i, In (Some (a, i)) (v_of v) -> exists off n tool, In (BWrap a off n tool) before /\ (off <= i < off + n)%nat) ->
  match run e (v_st v) (copied (v_arr v) ops) with
  | Ok (st, rs) => exists v', vrun e v ops = Ok (v', rs) /\ v_st v' = st
  | Fault f => vrun e v ops = Fault f
  end.
Proof.
  induction ops as [|o ops IH]; intros before v K H; cbn [copied run vrun].
  - exists v. auto.
  - assert (K' : arrays_kept ((before ++ [o]) ++ ops)) by (rewrite <- app_assoc; exact K). destruct o as [a i u|a off n tool|o]; cbn [vstep].
    + cbn [bind]. rewrite repoint_none, set_ib_same.
      * specialize (IH (before ++ [BStore a i u]) (mkV (v_st v) (fun a' i' => if Nat.eqb a' a && Nat.eqb i' i then u else v_arr v a' i') (v_of v)) K'). cbn [v_st v_arr v_of] in IH.
        destruct (run e (v_st v) _) as [[st rs]|f].
        -- destruct IH as (v' & E & Ev). { intros a' i' X. destruct (H a' i' X) as (off & n & tool & X1 & X2). exists off, n, tool. split; [apply in_or_app; left; exact X1|exact X2]. }
           exists v'. rewrite E. auto.
        -- rewrite IH; [reflexivity|]. intros a' i' X. destruct (H a' i' X) as (off & n & tool & X1 & X2). exists off, n, tool. split; [apply in_or_app; left; exact X1|exact X2].
      * intros X. destruct (H a i X) as (off & n & tool & X1 & X2). exact (K before a i u ops eq_refl off n tool X1 X2).
    + cbn [run step]. unfold gotcha_wrap. change (wrap_n e 3) with (wrap_body e (wrap_n e 2)). unfold wrap_body at 1.
      destruct (gotcha_init e (wrap_n e 2) (v_st v)) as [st1|]; cbn [bind]; [|reflexivity].
      change (map (fun i => v_arr v a i) (seq off n)) with (map (v_arr v a) (seq off n)).
      destruct (wrap_tool e (wrap_n e 2) st1 (map (v_arr v a) (seq off n)) tool) as [[st2 c]|]; cbn [bind]; [|reflexivity].
      set (v1 := mkV st2 (v_arr v) _). specialize (IH (before ++ [BWrap a off n tool]) v1 K'). cbn [v_st v_arr] in IH.
      assert (H1 : forall a' i', In (Some (a', i')) (v_of v1) -> exists off0 n0 tool0, In (BWrap a' off0 n0 tool0) (before ++ [BWrap a off n tool]) /\ (off0 <= i' < off0 + n0)%nat).
      { intros a' i' X. cbn [v_of v1] in X. apply pad_In in X. apply in_app_or in X. destruct X as [X|X].
        - apply pad_In in X. destruct (H a' i' X) as (off0 & n0 & tool0 & X1 & X2). exists off0, n0, tool0. split; [apply in_or_app; left; exact X1|exact X2].
        - apply in_map_iff in X. destruct X as (j & E & X). injection E as <- <-. apply in_seq in X. exists off, n, tool. split; [apply in_elt|lia]. }
      specialize (IH H1). unfold v1 in *. cbn [v_st v_arr] in IH. destruct (run e st2 _) as [[st rs]|f]; cbn [bind].
      * destruct IH as (v' & E & Ev). exists v'. rewrite E. auto.
      * rewrite IH. reflexivity.
    + cbn [run]. destruct (step e (v_st v) o) as [[st1 x]|]; cbn [bind]; [|reflexivity].
      specialize (IH (before ++ [BOther o]) (mkV st1 (v_arr v) (pad (v_of v) st1)) K'). cbn [v_st v_arr v_of] in IH.
      assert (H1 : forall a' i', In (Some (a', i')) (pad (v_of v) st1) -> exists off0 n0 tool0, In (BWrap a' off0 n0 tool0) (before ++ [BOther o]) /\ (off0 <= i' < off0 + n0)%nat).
      { intros a' i' X. apply pad_In in X. destruct (H a' i' X) as (off0 & n0 & tool0 & X1 & X2). exists off0, n0, tool0. split; [apply in_or_app; left; exact X1|exact X2]. }
      specialize (IH H1). destruct (run e st1 _) as [[st rs]|f]; cbn [bind].
      * destruct IH as (v' & E & Ev). exists v'. rewrite E. auto.
      * rewrite IH. reflexivity.
Qed.

(** *** after a store *)
Lemma repoint_length a i u : forall of ibs, length (repoint a i u of ibs) = length ibs.
Proof. induction of as [|o of IH]; intros [|b ibs]; cbn [repoint length]; try reflexivity. rewrite IH. reflexivity. Qed.
Lemma repoint_nth a i u : forall of ibs k, nth_error (repoint a i u of ibs) k =
  option_map (fun b => match nth_error of k with Some o => if points a i o then set_user u b else b | None => b end) (nth_error ibs k).
Proof.
  induction of as [|o of IH]; intros [|b ibs] [|k]; cbn [repoint nth_error option_map]; try reflexivity.
  - destruct (nth_error ibs k); reflexivity.
  - apply IH.
Qed.

Lemma empty_foreach e st g : smap (b_nf (s_b st)) g -> (forall n, g n = None) -> foreach_hash_entry (fun s => b_nf (s_b s)) (per_binding e) st = Ok (st, 0).
Proof.
  intros (l & c & I & KI & ND & Eg) H. unfold foreach_hash_entry. rewrite (inv_head _ _ _ _ _ I).
  destruct c as [|[k d] c].
  - pose proof (inv_cont _ _ _ _ _ I) as L. inversion L; subst. destruct (length (ht_table (b_nf (s_b st)))); reflexivity.
  - exfalso. specialize (Eg k). rewrite H in Eg. rewrite (aget_In cstr_eqb cstr_eqb_ok ((k, d) :: c) k d ND (or_introl eq_refl)) in Eg. discriminate Eg.
Qed.

Definition patched (ibs : list ibind) (st : state) : state := set_b (set_ib ibs (s_b st)) st.

Lemma patched_finish e maps mem ops libs mem' st rs ibs k ib n m x : process_ok e maps (ops ++ [OLoad libs mem']) -> calm maps (ops ++ [OLoad libs mem']) ->
  existsb is_api ops = true -> run e (init_state maps mem) ops = Ok (st, rs) -> all_found e maps ops -> length ibs = length (b_ib (s_b st)) ->
  lookup_hashtable (b_fn (s_b st)) n = Ok (Some k) -> nth_error ibs k = Some ib ->
  ~ current st m -> accepted (p_filter (s_p st)) (maps_after maps (ops ++ [OLoad libs mem'])) m -> slot relocs m n x ->
  exists st', run e (patched ibs st) [OLoad libs mem'; OFinish] = Ok (st', [RNone; RNone]) /\ p_mem (s_p st') x = ub_wrapper (ib_user ib).
Proof.
  intros P T A E NM EL Ek Eib NC Ha Hs. set (ops1 := ops ++ [OLoad libs mem']) in *.
  set (st1 := set_p (mkPS (p_maps (s_p st) ++ libs) mem' (p_log (s_p st)) (p_filter (s_p st))) st).
  assert (E1 : run e (init_state maps mem) ops1 = Ok (st1, rs ++ [RNone])) by (unfold ops1; rewrite run_app, E; reflexivity).
  pose proof (po_env _ _ _ P) as EO.
  destruct (reach e maps mem ops1 st1 _ P E1) as (R1 & M1 & F1 & _).
  destruct (hist_good e EO maps mem ops1 st1 _ P T E1) as [IP|(ch & f & S & Y & G)].
  { exfalso. pose proof (pr_i _ _ _ _ _ IP) as Hi. cbn [st1 s_init set_p] in Hi. rewrite (state_init e maps mem ops st rs (process_app _ _ _ _ P) E) in Hi. congruence. }
  cbn [run step patched bind]. change (set_p _ (patched ibs st)) with (patched ibs st1).
  change (s_init (patched ibs st1)) with (s_init st1). rewrite (sr_init _ _ _ _ _ _ _ _ S). unfold dlopen_finish.
  destruct (sr_nf _ _ _ _ _ _ _ _ S) as (g & Gm & _ & Gn).
  rewrite (empty_foreach e (patched ibs st1) g); [|exact Gm|].
  2: { intros nm. apply Gn. unfold ops1. rewrite arun_app. cbn [arun fst astep]. 
       destruct (a_stack (fst (arun ins_c (exports e) e (a0 maps) ops)) nm) eqn:Es; [left|right].
       { exact Es. }
       destruct (NM nm) as (y & Hy).
       - destruct (installed e ops nm) eqn:Q; [|unfold wrapped; congruence]. exfalso. pose proof (proj2 (stack_empty e (exports e) ins_c ins_c_ne maps ops nm)) as H. rewrite Es in H.
         assert (Z : ~ wrapped e ops nm) by (intros W; exact (W Q)). discriminate (H Z).
       - apply (orig_found e (exports e) ins_c ins_c_ne) in Hy. cbn [a_orig]. congruence. }
  cbn [bind]. unfold update_all_library_gots. pose proof (br_fn _ _ _ _ _ (sr_b _ _ _ _ _ _ _ _ S)) as HT.
  pose proof Y as [Y1 Y2 Y3 Y4 Y5].
  destruct (update_gots_exact e (exports e) relocs (seen maps ops1) (cm_libs _ _ T) (seen_ok e _ _ P) ibs (b_fn (s_b st1)) (fun n => hd_error (ch n)) HT) with (maps := p_maps (s_p st1)) (l := s_l st1) (f := f) (p := s_p st1)
    as (l' & p' & f' & EU & _ & _ & _ & _ & _ & [U1 _ _]); auto.
  { intros nm b Hb. rewrite EL. exact (hd_lt _ _ _ _ _ _ _ _ _ S Hb). }
  change (b_fn (s_b (patched ibs st1))) with (b_fn (s_b st1)). change (b_ib (s_b (patched ibs st1))) with ibs. change (s_p (patched ibs st1)) with (s_p st1). change (s_l (patched ibs st1)) with (s_l st1).
  rewrite EU. cbn [bind]. eexists. split; [reflexivity|]. cbn [s_p set_p].
  assert (Hk : hd_error (ch n) = Some k). { pose proof (smap_lookup _ _ n HT) as Q. change (b_fn (s_b st1)) with (b_fn (s_b st)) in Q. rewrite Ek in Q. congruence. }
  rewrite (U1 m n x k); [unfold wrp; rewrite Eib; reflexivity| | |exact Hs|exact Hk].
  - change (p_filter (s_p st1)) with (p_filter (s_p st)). rewrite M1. exact Ha.
  - intros Q. apply NC. change (current st1 m). apply (current_gen (seen maps ops1) (cm_libs _ _ T) st1 f m Y); [|lia|exact Q].
    apply maps_seen. exact (accepted_in _ _ _ Ha).
Qed.

Lemma vrun_app e : forall l1 l2 v, vrun e v (l1 ++ l2) = do ' (v1, r1) <- vrun e v l1; do ' (v2, r2) <- vrun e v1 l2; Ok (v2, r1 ++ r2).
Proof.
  induction l1 as [|o l1 IH]; intros l2 v; cbn [app vrun bind].
  - destruct (vrun e v l2) as [[v2 r2]|]; reflexivity.
  - destruct (vstep e v o) as [[v1 r1]|]; cbn [bind]; [|reflexivity]. rewrite IH. destruct (vrun e v1 l1) as [[v2 r2]|]; cbn [bind]; [|reflexivity].
    destruct (vrun e v2 l2) as [[v3 r3]|]; cbn [bind]; [|reflexivity]. rewrite app_assoc. reflexivity.
Qed.

Lemma stored_law e maps mem arr ops v rs a i u libs mem' n m x :
  arrays_kept ops -> let hist := copied arr ops in process_ok e maps (hist ++ [OLoad libs mem']) -> calm maps (hist ++ [OLoad libs mem']) ->
  existsb is_api hist = true -> vrun e (vinit maps mem arr) ops = Ok (v, rs) -> all_found e maps hist -> given_in v n a i ->
  ~ current (v_st v) m -> accepted (p_filter (s_p (v_st v))) (maps_after maps (hist ++ [OLoad libs mem'])) m -> slot relocs m n x ->
  exists v', vrun e v [BStore a i u; BOther (OLoad libs mem'); BOther OFinish] = Ok (v', [RNone; RNone]) /\ p_mem (s_p (v_st v')) x = ub_wrapper u.
Proof.
  intros K hist P T A E NM (k & Ek & Eo) NC Ha Hs.
  assert (HE : exists rs', run e (init_state maps mem) hist = Ok (v_st v, rs')).
  { pose proof (vrun_copied e ops [] (vinit maps mem arr) K) as H. cbn [vinit v_st v_arr v_of] in H. specialize (H ltac:(intros ? ? [])). fold hist in H. destruct (run e (init_state maps mem) hist) as [[st rs']|].
    - destruct H as (v' & E' & Ev). fold (vinit maps mem arr) in E'. rewrite E in E'. injection E' as -> _. subst st. eauto.
    - fold (vinit maps mem arr) in H. congruence. }
  destruct HE as (rs' & HE). pose proof (process_app _ _ _ _ P) as P0.
  assert (HI : exists ib, nth_error (b_ib (s_b (v_st v))) k = Some ib).
  { destruct (reach e maps mem hist (v_st v) rs' P0 HE) as (R & _). pose proof (fn_lookup e False (v_st v) _ n R ltac:(rewrite (state_init e maps mem hist _ _ P0 HE); exact A)) as L.
    destruct (a_stack _ n) as [|y s]; [congruence|]. destruct L as (k' & ib & L1 & L2 & _). rewrite Ek in L1. injection L1 as <-. eauto. }
  destruct HI as (ib & HI). set (ibs := repoint a i u (v_of v) (b_ib (s_b (v_st v)))).
  assert (Hp : nth_error ibs k = Some (set_user u ib)). { unfold ibs. rewrite repoint_nth, HI, Eo. cbn [option_map points]. rewrite !Nat.eqb_refl. reflexivity. }
  destruct (patched_finish e maps mem hist libs mem' (v_st v) rs' ibs k _ n m x P T A HE NM ltac:(apply repoint_length) Ek Hp NC Ha Hs) as (st' & E' & M').
  cbn [ib_user set_user] in M'. cbn [vrun vstep bind v_st v_arr v_of]. fold ibs. change (set_b (set_ib ibs (s_b (v_st v))) (v_st v)) with (patched ibs (v_st v)).
  cbn [run] in E'. destruct (step e (patched ibs (v_st v)) (OLoad libs mem')) as [[s1 r1]|]; cbn [bind] in E' |- *; [|discriminate E'].
  cbn [v_st v_arr v_of]. destruct (step e s1 OFinish) as [[s2 r2]|]; cbn [bind] in E' |- *; [|discriminate E'].
  cbn [app]. injection E' as <- <- <-. eexists. split; [reflexivity|exact M'].
Qed.
