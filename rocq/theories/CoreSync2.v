(** gotcha_wrap and dlopen keep the libraries redirected. *)
From Verif Require Import Base ListFacts HashModel HashProofs SpecHash HashTrace ElfModel ToolModel CoreModel SpecCore SpecRun SpecSync ToolProofs CoreMaps CoreRel CoreLib CoreStep CoreWrap CoreLoop CoreMain CoreSync.
From Coq Require Import Permutation Sorted.

Section Sync.
Context (e : env) (ex : lmap -> cstr -> option Z) (rl : lmap -> list (Z * cstr)).
Context (EO : env_ok e).
Notation abind := (abind ins_c ex).
Notation abinds := (abinds ins_c ex).
Notation amain := (amain ins_c ex e).
Notation abinds_user := (abinds_user ins_c ex e).
Notation ainit := (ainit ins_c ex e).
Notation awrap := (awrap ins_c ex e).
Notation srel := (srel e ex rl False).
Let Hps := eo_ps e EO.

(** the outermost wrapper *)
Definition hdw (a : astate) (n : cstr) : option Z := option_map en_wrapper (hd_error (a_stack a n)).

Lemma hd_hdw st a ch todo n b : srel st a ch todo -> hd_error (ch n) = Some b -> hdw a n = Some (wrp (b_ib (s_b st)) b).
Proof.
  intros S Hb. pose proof (br_stack _ _ _ _ _ (sr_b _ _ _ _ _ _ _ _ S) n) as HF. unfold hdw. destruct (ch n) as [|i r]; [discriminate|]. injection Hb as ->.
  inversion HF as [|? y ? s He Hr]; subst. cbn. destruct (entry_user _ _ _ He) as (ib & A & B & _). unfold wrp. rewrite A. congruence.
Qed.
Lemma hd_none st a ch todo n : srel st a ch todo -> hd_error (ch n) = None -> hdw a n = None.
Proof.
  intros S Hb. pose proof (br_stack _ _ _ _ _ (sr_b _ _ _ _ _ _ _ _ S) n) as HF. unfold hdw. destruct (ch n) as [|i r]; [|discriminate]. inversion HF. reflexivity.
Qed.
Lemma hd_lt st a ch todo n b : srel st a ch todo -> hd_error (ch n) = Some b -> (b < length (b_ib (s_b st)))%nat.
Proof.
  intros S Hb. pose proof (br_stack _ _ _ _ _ (sr_b _ _ _ _ _ _ _ _ S) n) as HF. destruct (ch n) as [|i r]; [discriminate|]. injection Hb as ->.
  inversion HF as [|? y ? s He Hr]; subst. destruct (entry_user _ _ _ He) as (ib & A & _). eapply nth_error_Some_lt; eauto.
Qed.
(** heads that stay keep their wrapper *)
Lemma hd_same st a ch todo st' a' ch' todo' n : srel st a ch todo -> srel st' a' ch' todo' -> bext (s_b st) (s_b st') ->
  hd_error (ch' n) = hd_error (ch n) -> hdw a' n = hdw a n.
Proof.
  intros S S' B E. destruct (hd_error (ch n)) as [b|] eqn:Eb.
  - rewrite (hd_hdw _ _ _ _ _ _ S Eb), (hd_hdw _ _ _ _ _ _ S' E).
    destruct (nth_error_lt_Some _ _ (hd_lt _ _ _ _ _ _ S Eb)) as [ib Hib].
    destruct (bext_user _ _ _ _ _ _ _ _ (sr_b _ _ _ _ _ _ _ _ S) B Hib) as (ib' & A & C). unfold wrp. rewrite Hib, A. congruence.
  - rewrite (hd_none _ _ _ _ _ S Eb), (hd_none _ _ _ _ _ S' E). reflexivity.
Qed.

(** *** the loop of gotcha_wrap, when main is not wrapped for the first time *)
Definition nsync (tool : cstr) (N : list cstr) (ch0 : cstr -> list nat) (st : state) (ch : cstr -> list nat) (pr : progress) : Prop :=
  exists tf, (match pr_new pr with Some t => smap t tf | None => forall n, tf n = None end) /\ (forall n, tf n <> None -> In n N) /\
    forall n, match tf n with
              | Some b => hd_error (ch n) = Some b /\ exists y, entry_of (s_b st) b = Some y /\ en_tool y = tool
              | None => hd_error (ch n) = hd_error (ch0 n)
              end.

Definition plain (a : astate) (ubs : list ubind) : Prop := (forall u, In u ubs -> ub_name u <> n_main) \/ a_main a = true.

Lemma wrap_main_plain rec st a ch todo u r : srel st a ch todo -> plain a (u :: r) -> wrap_main e rec st (ub_name u) = Ok st.
Proof.
  intros S H. unfold wrap_main. rewrite strcmp_main, (sr_main _ _ _ _ _ _ _ _ S). destruct H as [H|H].
  - rewrite (CoreMaps.cstr_eqb_neq _ _ (H u (or_introl eq_refl))). reflexivity.
  - rewrite H, andb_false_r. reflexivity.
Qed.

Lemma wrap_loop_sync rec tool N num ch0 : 0 < num -> forall ubs st a ch todo start pr,
  srel st a ch (seq start (length ubs) ++ todo) ->
  (forall k u, nth_error ubs k = Some u -> entry_of (s_b st) (start + k)%nat = Some (mkE tool (ub_wrapper u) (ub_handle u)) /\
                                           name_of (s_b st) (start + k)%nat = Some (ub_name u)) ->
  plain a ubs -> (forall u, In u ubs -> In (ub_name u) N) -> nsync tool N ch0 st ch pr ->
  let r := abinds a tool ubs in
  exists st' ch' pr', wrap_loop e rec num (length ubs) start (st, pr) = Ok (st', pr') /\ srel st' (fst r) ch' todo /\
    s_p st' = s_p st /\ tracks (p_maps (s_p st)) (s_l st) (s_l st') /\ bext (s_b st) (s_b st') /\ nsync tool N ch0 st' ch' pr'.
Proof.
  intros Hnum. induction ubs as [|u us IH]; intros st a ch todo start pr S Hent Hpl HN Hns; cbv zeta.
  - cbn. exists st, ch, pr. cbn in S. spl; auto; [constructor|apply bext_refl].
  - cbn [length seq app] in S. cbn [wrap_loop length].
    destruct (Hent 0%nat u eq_refl) as [He Hn]. rewrite Nat.add_0_r in He, Hn.
    set (x := mkE tool (ub_wrapper u) (ub_handle u)) in *. set (n := ub_name u) in *.
    pose proof (wrap_main_plain rec _ _ _ _ _ _ S Hpl) as EM. fold n in EM.
    destruct Hns as (tf & Htf & Hdom & Hhd).
    assert (Hni : new_inv (pr_new pr)).
    { unfold new_inv. destruct (pr_new pr); [|auto]. destruct Htf as (l & c & I & _). eauto. }
    destruct (wrap_one_spec e ex rl rec False st a ch _ start n x num pr st a ch Hps Hnum S Hn He EM S Hn He eq_refl ltac:(tauto) Hni)
      as (st2 & ch2 & pr2 & nb & EO2 & S2 & Hnf & HP & HT & HB & Hto & Hta & _ & Hch & Hnew & Hnb1 & Hnb2).
    replace (mkUB n (en_wrapper x) (en_handle x)) with u in * by (destruct u; reflexivity). cbn [en_tool x] in S2, Hnf.
    rewrite EO2. cbn [bind].
    assert (B2 : bext (s_b st) (s_b st2)) by (apply bext_eq; auto).
    set (r1 := abind a tool u) in *.
    assert (Hns2 : nsync tool N ch0 st2 ch2 pr2).
    { unfold new_step in Hnew. destruct nb.
      - destruct Hnew as (t0 & t1 & A1 & A2 & A3). destruct (Hnb1 eq_refl) as [Hhd2 Hpri].
        assert (Hfn : tf n = None).
        { destruct (tf n) as [b|] eqn:E; [|reflexivity]. exfalso. pose proof (Hhd n) as H. rewrite E in H. destruct H as (H1 & y & H2 & H3).
          pose proof (br_stack _ _ _ _ _ (sr_b _ _ _ _ _ _ _ _ S) n) as HF. destruct (ch n) as [|i rr]; [discriminate|]. injection H1 as ->.
          destruct (a_stack a n) as [|z s]; [inversion HF|]. assert (Hz : entry_of (s_b st) b = Some z) by (inversion HF; auto).
          assert (z = y) by congruence. subst z. rewrite H3 in Hpri. cbn in Hpri. lia. }
        assert (Ht0 : smap t0 tf).
        { destruct (pr_new pr) as [t|]; [subst t0; auto|]. destruct (smap_create (e_ps e) (num * 2) Hps ltac:(lia)) as (t' & Et & Hs).
          assert (t' = t0) by congruence. subst t'. eapply smap_ext; [|exact Hs]. intros k. cbn. symmetry. auto. }
        destruct (smap_add t0 tf n start Ht0 Hfn) as (t1' & Et1 & Hs1). assert (t1' = t1) by congruence. subst t1'.
        exists (cupd tf n (Some start)). rewrite A3. split; [auto|]. split; [intros m; destruct (cstr_dec m n) as [->|D]; [intros _; apply HN; left; reflexivity|rewrite cupd_neq by auto; auto]|]. intros m. destruct (cstr_dec m n) as [->|D].
        + rewrite cupd_eq. split; [auto|]. exists x. split; [apply (B2 _ _ _ He Hn)|reflexivity].
        + rewrite cupd_neq by auto. rewrite (Hch m D). specialize (Hhd m). destruct (tf m) as [b|] eqn:Em; [|auto]. destruct Hhd as (H1 & y & H2 & H3).
          split; [auto|]. exists y. split; [|auto]. assert (Hin : In b (ch m)) by (destruct (ch m); [discriminate|injection H1 as ->; left; auto]).
          apply (B2 _ _ _ H2 (br_name _ _ _ _ _ (sr_b _ _ _ _ _ _ _ _ S) _ _ Hin)).
      - exists tf. rewrite Hnew. split; [auto|]. split; [auto|]. intros m. specialize (Hhd m).
        assert (Em2 : hd_error (ch2 m) = hd_error (ch m)) by (destruct (cstr_dec m n) as [->|D]; [auto|rewrite (Hch m D); auto]). rewrite Em2.
        destruct (tf m) as [b|] eqn:Em; [|auto]. destruct Hhd as (H1 & y & H2 & H3).
        split; [auto|]. exists y. split; [|auto]. assert (Hin : In b (ch m)) by (destruct (ch m); [discriminate|injection H1 as ->; left; auto]).
        apply (B2 _ _ _ H2 (br_name _ _ _ _ _ (sr_b _ _ _ _ _ _ _ _ S) _ _ Hin)). }
    destruct (IH st2 (fst r1) ch2 todo (Datatypes.S start) pr2 S2) as (st3 & ch3 & pr3 & EL & S3 & P3 & T3 & B3 & N3).
    + intros k v Hk. destruct (Hent (Datatypes.S k) v Hk) as [H1 H2]. rewrite Nat.add_succ_r in H1, H2. apply (B2 _ _ _ H1 H2).
    + destruct Hpl as [Hpl|Hpl]; [left; intros; apply Hpl; right; auto|right; unfold r1; rewrite abind_main; auto].
    + intros v Hv. apply HN. right. auto.
    + auto.
    + rewrite EL. exists st3, ch3, pr3.
      assert (ER : abinds a tool (u :: us) = (fst (abinds (fst r1) tool us), snd r1 || snd (abinds (fst r1) tool us))).
      { cbn [SpecCore.abinds]. change (abind a tool u) with r1. destruct r1 as [a1 f1]. cbn [fst snd]. destruct (abinds a1 tool us). reflexivity. }
      rewrite ER. cbn [fst snd]. spl; auto.
      * congruence.
      * eapply tracks_trans; [exact HT|rewrite <- HP; exact T3].
      * eapply bext_trans; eauto.
Qed.

(** *** gotcha_wrap up to its loop *)
Lemma wrap_tool_enter rec st a ch todo ubs tool : srel st a ch todo ->
  let t := tool_of tool in let start := length (b_ib (s_b st)) in
  exists st1, (forall r, r = wrap_tool e rec st ubs tool -> r =
      (do ' (st, pr) <- wrap_loop e rec (Z.of_nat (length ubs)) (length ubs) start (st1, mkPr 0 None);
       do st <- (match pr_new pr with Some t => update_all_library_gots e t st | None => Ok st end);
       Ok (st, if negb (pr_not_found pr =? 0) then GOTCHA_FUNCTION_NOT_FOUND else GOTCHA_SUCCESS))) /\
    srel st1 (ause a t) ch (seq start (length ubs) ++ todo) /\ bext (s_b st) (s_b st1) /\ s_p st1 = s_p st /\
    s_l st1 = mkLS (l_table (s_l st)) (l_heap (s_l st)) (l_list (s_l st)) (u32 (l_gen (s_l st) + 1)) /\
    (forall k u, nth_error ubs k = Some u -> entry_of (s_b st1) (start + k)%nat = Some (mkE t (ub_wrapper u) (ub_handle u)) /\
                                             name_of (s_b st1) (start + k)%nat = Some (ub_name u)).
Proof.
  intros S t start.
  destruct (srel_use_gen e ex rl Hps False st a ch todo t ubs S ltac:(tauto)) as (ts & ti & bs & bt & E1 & E2 & E3 & E4 & S1 & B1 & Hent).
  exists (set_b bs (set_l (mkLS (l_table (s_l st)) (l_heap (s_l st)) (l_list (s_l st)) (u32 (l_gen (s_l st) + 1))) st)).
  split; [|split; [apply S1|split; [exact B1|split; [reflexivity|split; [reflexivity|exact Hent]]]]].
  intros r ->. unfold wrap_tool. fold (tool_of tool). change (tool_of tool) with t.
  cbn [s_b set_b b_tools set_handles b_handles]. rewrite E1. cbn [bind]. cbn [s_b set_b set_l s_l].
  cbn [set_b s_b s_init s_main s_l s_p set_l] in *. rewrite E2. cbn [bind]. rewrite (deref_Ok _ _ _ E3). cbn [bind]. rewrite E4. reflexivity.
Qed.

(** *** the invariant *)
Section All.
Context (all : list lmap) (HND : apart all).
Context (HL : forall m, In m all -> lib_ok e ex rl m).
Notation linv := (linv all).

(** the libraries are tracked one by one *)
Record lgood (st : state) (f : lkey -> option nat) : Prop := {
  lg_l : linv (s_l st) f;
  lg_in : forall m, In m (p_maps (s_p st)) -> In m all;
  lg_nd : NoDup (map key_of (p_maps (s_p st)));
  lg_fun : slots_fun rl (p_maps (s_p st));
  lg_gen : 0 <= l_gen (s_l st) }.

(** every slot of an accepted library for a name other than main holds the outermost wrapper, unless neither has changed *)
Definition moved (st : state) (a : astate) (st' : state) (a' : astate) : Prop :=
  p_maps (s_p st') = p_maps (s_p st) /\ p_filter (s_p st') = p_filter (s_p st) /\
  forall m n x w, accepted (p_filter (s_p st)) (p_maps (s_p st)) m -> n <> n_main -> slot rl m n x -> hdw a' n = Some w ->
    p_mem (s_p st') x = w \/ (p_mem (s_p st') x = p_mem (s_p st) x /\ hdw a n = Some w).

Lemma moved_trans st1 a1 st2 a2 st3 a3 : moved st1 a1 st2 a2 -> moved st2 a2 st3 a3 -> moved st1 a1 st3 a3.
Proof.
  intros (M1 & F1 & H1) (M2 & F2 & H2). split; [congruence|]. split; [congruence|]. intros m n x w Ha D Hs Hw. rewrite F1, M1 in H2.
  destruct (H2 m n x w Ha D Hs Hw) as [H|[H H']]; [auto|]. destruct (H1 m n x w Ha D Hs H') as [E|[E E']]; [left; congruence|right; split; congruence].
Qed.
Lemma moved_same st a st' a' : s_p st' = s_p st -> (forall n, n <> n_main -> hdw a' n = hdw a n) -> moved st a st' a'.
Proof. intros E H. split; [congruence|]. split; [congruence|]. intros m n x w _ D _ Hw. right. rewrite E. split; [auto|]. rewrite <- H; auto. Qed.

Lemma accepted_in fl maps m : accepted fl maps m -> In m maps.
Proof. intros (pre & rest & -> & _). apply in_elt. Qed.

Lemma linv_base l f : linv l f -> lbase l.
Proof.
  intros L. destruct (li_map _ _ _ L) as (li & c & I & KI & ND & Eg). exists li, c. split; [auto|]. intros k i Hi.
  pose proof (aget_In lkey_eqb lkey_eqb_ok c k i ND Hi) as Hk. rewrite Eg in Hk. destruct (li_rec _ _ _ L _ _ Hk) as (lb & A & _). eapply nth_error_Some_lt; eauto.
Qed.

(** update_all_library_gots with a table of outermost bindings *)
Lemma update_good st a ch todo f t tf :
  srel st a ch todo -> smap t tf -> (forall n b, tf n = Some b -> hd_error (ch n) = Some b) -> lgood st f ->
  exists st' f', update_all_library_gots e t st = Ok st' /\ srel st' a ch todo /\ lgood st' f' /\ bext (s_b st) (s_b st') /\
    l_gen (s_l st') = l_gen (s_l st) /\ p_maps (s_p st') = p_maps (s_p st) /\ p_filter (s_p st') = p_filter (s_p st) /\
    (forall m n x w, accepted (p_filter (s_p st)) (p_maps (s_p st)) m -> slot rl m n x -> hdw a n = Some w -> tf n <> None ->
       genof (s_l st) f m <> l_gen (s_l st) \/ p_mem (s_p st) x = w -> p_mem (s_p st') x = w) /\
    (forall m n x, In m (p_maps (s_p st)) -> slot rl m n x -> tf n = None -> p_mem (s_p st') x = p_mem (s_p st) x).
Proof.
  intros S HT Hhd [L Hin Hnd SF Hg].
  assert (Hb : forall n b, tf n = Some b -> (b < length (b_ib (s_b st)))%nat) by (intros; eapply hd_lt; eauto).
  unfold update_all_library_gots.
  destruct (update_gots_exact e ex rl all HND HL (b_ib (s_b st)) t tf HT Hb (p_maps (s_p st)) (s_l st) f (s_p st) Hin Hnd L Hg SF)
    as (l' & p' & f' & E & L' & G' & PM & PF & _ & [U1 U2 U3]).
  rewrite E. cbn [bind]. exists (set_p p' (set_l l' st)), f'. split; [reflexivity|].
  split; [|split; [|split; [apply bext_refl|split; [auto|split; [auto|split; [auto|]]]]]].
  - constructor; cbn; try apply S; auto; [rewrite PM; apply S|eapply linv_base; eauto].
  - constructor; cbn [s_l s_p set_p set_l]; rewrite ?PM, ?PF, ?G'; auto.
  - cbn [s_p set_p set_l].
    assert (Hsn : forall m n x, In m (p_maps (s_p st)) -> slot rl m n x -> forall m' n', In m' (p_maps (s_p st)) -> slot rl m' n' x -> n' = n) by (intros m n x H1 H2 m' n' H3 H4; exact (SF m' m n' n x H3 H1 H4 H2)).
    split.
    + intros m n x w Hacc Hs Hw Hn Hor. destruct (tf n) as [b|] eqn:En; [|congruence].
      assert (Ew : w = wrp (b_ib (s_b st)) b) by (pose proof (hd_hdw _ _ _ _ _ _ S (Hhd _ _ En)); congruence).
      destruct Hor as [H|H]; rewrite Ew; [eapply U1; eauto|]. eapply U2; [|exact En|congruence].
      apply (Hsn m n x); [eapply accepted_in; eauto|auto].
    + intros m n x Hm Hs Hn. apply U3. intros m' n' H1 H2. rewrite (Hsn m n x Hm Hs _ _ H1 H2). auto.
Qed.

Lemma linv_gen l f g : linv l f -> l_gen l <= g -> linv (mkLS (l_table l) (l_heap l) (l_list l) g) f.
Proof. intros [A B C D] H. constructor; cbn; auto. intros i lb Hi. pose proof (D _ _ Hi). lia. Qed.

Lemma u32_gen g : 0 <= g < two32 - 1 -> u32 (g + 1) = g + 1.
Proof. intros H. unfold u32. apply Z.mod_small. unfold two32 in *. lia. Qed.

Lemma wrap_tool_moved rec st a ch todo ubs tool f : srel st a ch todo -> plain a ubs -> lgood st f -> l_gen (s_l st) < two32 - 1 ->
  let r := abinds (ause a (tool_of tool)) (tool_of tool) ubs in
  exists st' ch' c f', wrap_tool e rec st ubs tool = Ok (st', c) /\ srel st' (fst r) ch' todo /\ lgood st' f' /\ bext (s_b st) (s_b st') /\
    l_gen (s_l st') = l_gen (s_l st) + 1 /\ moved st a st' (fst r).
Proof.
  intros S Hpl Y Hg r. destruct Y as [Y1 Y2 Y3 Y4 Y5]. set (t := tool_of tool) in *.
  destruct (wrap_tool_enter rec st a ch todo ubs tool S) as (st1 & EW & S1 & B1 & P1 & L1 & Hent). rewrite (EW _ eq_refl). clear EW. fold t in S1, Hent.
  rewrite (u32_gen _ (conj Y5 Hg)) in L1.
  destruct (Nat.eq_dec (length ubs) 0) as [E0|E0].
  { destruct ubs; [|discriminate]. cbn [length wrap_loop bind pr_new pr_not_found]. exists st1, ch, GOTCHA_SUCCESS, f. split; [reflexivity|]. split; [exact S1|]. split; [|split; [auto|split; [rewrite L1; auto|]]].
    - constructor; rewrite ?P1, ?L1; auto; cbn [l_gen]; [apply linv_gen; [auto|lia]|lia].
    - apply moved_same; [auto|]. reflexivity. }
  destruct (wrap_loop_sync rec t (map ub_name ubs) (Z.of_nat (length ubs)) ch ltac:(lia) ubs st1 (ause a t) ch todo _ (mkPr 0 None) S1 Hent) as (st2 & ch2 & pr2 & EL & S2 & P2 & T2 & B2 & N2).
  { destruct Hpl as [H|H]; [left; auto|right; auto]. }
  { intros u Hu. apply in_map. exact Hu. }
  { exists (fun _ => None). cbn. split; [auto|]. split; [congruence|auto]. }
  fold r in S2. rewrite EL. cbn [bind]. destruct N2 as (tf & Htf & _ & Hhd).
  assert (Hin1 : forall m, In m (p_maps (s_p st1)) -> In m all) by (rewrite P1; auto).
  destruct (tracks_exact all HND _ _ _ T2 Hin1 f) as (f2 & L2 & G2 & GO2); [rewrite L1; apply linv_gen; [auto|lia]|rewrite L1; cbn; lia|].
  rewrite L1 in G2. cbn [l_gen] in G2.
  assert (Hst : forall m, genof (s_l st2) f2 m <> l_gen (s_l st2)).
  { intros m. rewrite GO2, G2, L1. unfold genof. cbn [l_heap]. pose proof (genof_le all _ _ m Y1 Y5) as H. unfold genof in H. lia. }
  assert (Hbx : bext (s_b st) (s_b st2)) by (eapply bext_trans; eauto).
  assert (Hsame : forall n, tf n = None -> hdw (fst r) n = hdw a n).
  { intros n Hn. specialize (Hhd n). rewrite Hn in Hhd. eapply (hd_same st a ch todo st2); eauto. }
  assert (Y : lgood st2 f2) by (constructor; rewrite ?P2, ?P1; auto; lia).
  destruct (pr_new pr2) as [nt|].
  - destruct (update_good st2 (fst r) ch2 todo f2 nt tf S2 Htf) as (st3 & f3 & EU & S3 & Y3' & B3 & G3 & PM3 & PF3 & U1 & U2); auto.
    + intros n b Hn. specialize (Hhd n). rewrite Hn in Hhd. apply Hhd.
    + rewrite EU. cbn [bind]. eexists st3, ch2, _, f3. split; [reflexivity|]. split; [auto|]. split; [auto|]. split; [eapply bext_trans; eauto|].
      split; [congruence|]. rewrite P2, P1 in PM3, PF3, U1, U2. split; [auto|]. split; [auto|].
      intros m n x w Ha D Hs Hw. destruct (tf n) as [b|] eqn:En.
      * left. eapply U1; eauto. congruence.
      * right. split; [eapply U2; eauto; eapply accepted_in; eauto|]. rewrite <- Hsame; auto.
  - cbn [bind]. eexists st2, ch2, _, f2. split; [reflexivity|]. split; [auto|]. split; [auto|]. split; [auto|]. split; [auto|].
    apply moved_same; [congruence|]. intros n _. apply Hsame. apply Htf.
Qed.

(** *** wrapping main for the first time *)
Lemma wrap_body_moved rec st a ch todo ubs tool f : srel st a ch todo -> plain a ubs -> lgood st f -> l_gen (s_l st) < two32 - 1 ->
  let r := abinds (ause a (tool_of tool)) (tool_of tool) ubs in
  exists st' ch' c f', wrap_body e rec st ubs tool = Ok (st', c) /\ srel st' (fst r) ch' todo /\ lgood st' f' /\ bext (s_b st) (s_b st') /\
    l_gen (s_l st') = l_gen (s_l st) + 1 /\ moved st a st' (fst r).
Proof.
  intros S. unfold wrap_body, gotcha_init. rewrite (sr_init _ _ _ _ _ _ _ _ S). cbn [bind]. apply (wrap_tool_moved rec st a ch todo ubs tool f S).
Qed.

Lemma wrap_main_moved rec st a ch todo f : srel st a ch todo -> a_main a = false -> lgood st f -> l_gen (s_l st) < two32 - 2 ->
  exists st' ch' f', wrap_main e (wrap_body e rec) st n_main = Ok st' /\ srel st' (amain a n_main) ch' todo /\ lgood st' f' /\
    bext (s_b st) (s_b st') /\ l_gen (s_l st') = l_gen (s_l st) + 2 /\ moved st a st' (amain a n_main).
Proof.
  intros S Hm Y Hg. unfold wrap_main. rewrite strcmp_main, CoreMaps.cstr_eqb_refl, (sr_main _ _ _ _ _ _ _ _ S), Hm. cbn [andb negb].
  set (st0 := mkSt (s_init st) true (s_b st) (s_l st) (s_p st)).
  set (a0 := mkA (a_init a) true (a_tools a) (a_stack a) (a_orig a) (a_maps a)).
  assert (S0 : srel st0 a0 ch todo) by (constructor; cbn; try apply S; auto; tauto).
  assert (Y0 : lgood st0 f) by (destruct Y; constructor; auto).
  destruct (wrap_body_moved rec st0 a0 ch todo (libc_binds e) (Some n_gotcha) f S0 (or_intror eq_refl) Y0) as (st1 & ch1 & c1 & f1 & E1 & S1 & Y1 & B1 & G1 & M1); [cbn [st0 s_l]; lia|].
  rewrite E1. cbn [bind tool_of] in *. set (a1 := fst (abinds (ause a0 n_gotcha) n_gotcha (libc_binds e))) in *.
  assert (Hm1 : a_main a1 = true) by (unfold a1; destruct (abinds_frame ex n_gotcha (libc_binds e) (ause a0 n_gotcha)) as (-> & _); reflexivity).
  cbn [st0 s_l s_b] in *.
  destruct (wrap_body_moved rec st1 a1 ch1 todo (main_binds e) (Some n_gotcha) f1 S1 (or_intror Hm1) Y1) as (st2 & ch2 & c2 & f2 & E2 & S2 & Y2 & B2 & G2 & M2); [lia|].
  rewrite E2. cbn [bind tool_of] in *. exists st2, ch2, f2.
  assert (Ea : amain a n_main = fst (abinds (ause a1 n_gotcha) n_gotcha (main_binds e))).
  { unfold SpecCore.amain. rewrite CoreMaps.cstr_eqb_refl, Hm. reflexivity. }
  rewrite Ea. split; [reflexivity|]. split; [auto|]. split; [auto|]. split; [eapply bext_trans; eauto|]. split; [lia|].
  eapply moved_trans; [|exact M2]. exact M1.
Qed.

Lemma wrap_first_main rec st a ch todo u tool f : srel st a ch todo -> a_main a = false -> ub_name u = n_main -> lgood st f -> l_gen (s_l st) < two32 - 3 ->
  let r := abinds_user (ause a (tool_of tool)) (tool_of tool) [u] in
  exists st' ch' c f', wrap_tool e (wrap_body e rec) st [u] tool = Ok (st', c) /\ srel st' (fst r) ch' todo /\ lgood st' f' /\ bext (s_b st) (s_b st') /\
    l_gen (s_l st') = l_gen (s_l st) + 3 /\ moved st a st' (fst r).
Proof.
  intros S Hm Hu Y Hg r. set (t := tool_of tool) in *.
  destruct (wrap_tool_enter (wrap_body e rec) st a ch todo [u] tool S) as (st1 & EW & S1 & B1 & P1 & L1 & Hent). rewrite (EW _ eq_refl). clear EW. fold t in S1, Hent.
  pose proof (lg_gen _ _ Y) as Hg0. rewrite (u32_gen (l_gen (s_l st))) in L1 by lia.
  cbn [length seq app wrap_loop] in *. set (start := length (b_ib (s_b st))) in *.
  destruct (Hent 0%nat u eq_refl) as [He Hn]. rewrite Nat.add_0_r in He, Hn. rewrite Hu in Hn.
  assert (Y1 : lgood st1 f).
  { destruct Y as [Y1 Y2 Y3 Y4 Y5]. constructor; rewrite ?P1, ?L1; auto; cbn [l_gen]; [apply linv_gen; [auto|lia]|lia]. }
  assert (M1 : moved st a st1 (ause a t)) by (apply moved_same; [auto|reflexivity]).
  destruct (wrap_main_moved rec st1 (ause a t) ch (start :: todo) f S1 Hm Y1) as (st2 & ch2 & f2 & E2 & S2 & Y2 & B2 & G2 & M2); [rewrite L1; cbn [l_gen]; lia|].
  destruct (B2 _ _ _ He Hn) as [He2 Hn2].
  set (x := mkE t (ub_wrapper u) (ub_handle u)) in *.
  destruct (wrap_one_spec e ex rl (wrap_body e rec) False st1 (ause a t) ch todo start n_main x (Z.of_nat 1) (mkPr 0 None) st2 (amain (ause a t) n_main) ch2 Hps ltac:(lia) S1 Hn He E2 S2 Hn2 He2 (amain_prio ex e _ _ _) ltac:(tauto) I)
    as (st3 & ch3 & pr3 & nb & EO3 & S3 & Hnf & HP & HT & HB & Hto & Hta & _ & Hch & Hnew & Hnb1 & Hnb2).
  replace (mkUB n_main (en_wrapper x) (en_handle x)) with u in * by (destruct u; cbn in *; congruence). cbn [en_tool x] in S3, Hnf.
  change (Z.of_nat (length [u])) with (Z.of_nat 1). rewrite EO3. cbn [bind].
  assert (Er : fst r = fst (abind (amain (ause a t) n_main) t u)).
  { unfold r. cbn [SpecCore.abinds_user]. rewrite Hu. destruct (abind (amain (ause a t) n_main) t u). reflexivity. }
  rewrite <- Er in S3.
  destruct Y2 as [Z1 Z2 Z3 Z4 Z5].
  destruct (tracks_exact all HND _ _ _ HT Z2 f2 Z1 Z5) as (f3 & L3 & G3 & GO3).
  assert (B3 : bext (s_b st2) (s_b st3)) by (apply bext_eq; auto).
  assert (Bx : bext (s_b st) (s_b st3)) by (eapply bext_trans; [exact B1|eapply bext_trans; eauto]).
  assert (Hsame : forall n, n <> n_main -> hdw (fst r) n = hdw (amain (ause a t) n_main) n).
  { intros n D. eapply (hd_same st2 _ ch2 _ st3); eauto. rewrite Hch; auto. }
  assert (M3 : moved st a st3 (fst r)).
  { eapply moved_trans; [exact M1|]. eapply moved_trans; [exact M2|]. apply moved_same; auto. }
  assert (Y3 : lgood st3 f3) by (constructor; rewrite ?HP; auto; lia).
  rewrite L1 in G2. cbn [l_gen] in G2.
  assert (HG : l_gen (s_l st3) = l_gen (s_l st) + 3) by (rewrite G3, G2; lia).
  destruct (pr_new pr3) as [nt|] eqn:Ent.
  - assert (HTf : exists tf, smap nt tf /\ (forall n b, tf n = Some b -> hd_error (ch3 n) = Some b) /\ forall n, n <> n_main -> tf n = None).
    { unfold new_step in Hnew. destruct nb; [|discriminate]. destruct Hnew as (t0 & t1 & A1 & A2 & A3). injection A3 as <-.
      cbn [pr_new] in A1. destruct (smap_create (e_ps e) (Z.of_nat 1 * 2) Hps ltac:(lia)) as (t' & Et & Hs). assert (t' = t0) by congruence. subst t'.
      destruct (smap_add t0 _ n_main start Hs eq_refl) as (t1' & Et1 & Hs1). assert (t1' = nt) by congruence. subst t1'.
      eexists. split; [exact Hs1|]. split.
      - intros n b. destruct (cstr_dec n n_main) as [->|D]; [rewrite cupd_eq|rewrite cupd_neq by auto; discriminate]. intros H. injection H as <-. apply (Hnb1 eq_refl).
      - intros n D. rewrite cupd_neq by auto. reflexivity. }
    destruct HTf as (tf & Htf & Hhd & Hoth).
    destruct (update_good st3 (fst r) ch3 todo f3 nt tf S3 Htf Hhd Y3) as (st4 & f4 & EU & S4 & Y4 & B4 & G4 & PM4 & PF4 & U1 & U2).
    rewrite EU. cbn [bind]. eexists st4, ch3, _, f4. split; [reflexivity|]. split; [auto|]. split; [auto|]. split; [eapply bext_trans; eauto|].
    split; [lia|]. eapply moved_trans; [exact M3|]. split; [auto|]. split; [auto|]. intros m n y w Ha D Hs Hw. right. split; [|auto].
    eapply U2; [eapply accepted_in; eauto|exact Hs|]. auto.
  - eexists st3, ch3, _, f3. split; [reflexivity|]. split; [auto|]. split; [auto|]. split; [auto|]. split; auto.
Qed.

(** *** any call keeps the libraries tracked *)
Lemma new_step_inv num old new n b nb : 0 < num -> new_step e num old new n b nb -> new_inv old -> new_inv new.
Proof.
  intros Hn H I. unfold new_step in H. destruct nb; [|subst; auto]. destruct H as (t0 & t1 & A1 & A2 & ->).
  assert (I0 : exists l c, ht_inv strhash libc_strcmp t0 l c).
  { destruct old as [t|]; [subst t0; exact I|]. destruct (create_spec (D:=nat) (e_ps e) (num * 2) strhash libc_strcmp Hps ltac:(lia)) as (t' & Et & It & _).
    assert (t' = t0) by congruence. subst t'. eauto. }
  destruct I0 as (l & c & I0). destruct (addto_spec t0 l c n b I0) as (t' & l' & c' & E & I' & _). assert (t' = t1) by congruence. subst t'. exists l', ((n, b) :: c'). auto.
Qed.

Definition slack (a : astate) : Z := if a_main a then 0 else 2.

Lemma wrap_loop_good rec tool num : 0 < num -> forall ubs st a ch todo start pr f,
  srel st a ch (seq start (length ubs) ++ todo) ->
  (forall k u, nth_error ubs k = Some u -> entry_of (s_b st) (start + k)%nat = Some (mkE tool (ub_wrapper u) (ub_handle u)) /\
                                           name_of (s_b st) (start + k)%nat = Some (ub_name u)) ->
  lgood st f -> l_gen (s_l st) + slack a < two32 -> new_inv (pr_new pr) ->
  let r := abinds_user a tool ubs in
  exists st' ch' pr' f', wrap_loop e (wrap_body e rec) num (length ubs) start (st, pr) = Ok (st', pr') /\ srel st' (fst r) ch' todo /\ lgood st' f' /\
    0 <= l_gen (s_l st') /\ l_gen (s_l st') + slack (fst r) = l_gen (s_l st) + slack a.
Proof.
  intros Hnum. induction ubs as [|u us IH]; intros st a ch todo start pr f S Hent Y Hg Hni; cbv zeta.
  - cbn. exists st, ch, pr, f. cbn in S. spl; auto. apply (lg_gen _ _ Y).
  - cbn [length seq app] in S. cbn [wrap_loop length].
    destruct (Hent 0%nat u eq_refl) as [He Hn]. rewrite Nat.add_0_r in He, Hn.
    set (x := mkE tool (ub_wrapper u) (ub_handle u)) in *. set (n := ub_name u) in *.
    assert (HM : exists st1 ch1 f1, wrap_main e (wrap_body e rec) st n = Ok st1 /\ srel st1 (amain a n) ch1 (start :: seq (Datatypes.S start) (length us) ++ todo) /\ lgood st1 f1 /\
       bext (s_b st) (s_b st1) /\ l_gen (s_l st1) + slack (amain a n) = l_gen (s_l st) + slack a).
    { destruct (a_main a) eqn:Em.
      - exists st, ch, f. unfold wrap_main. rewrite (sr_main _ _ _ _ _ _ _ _ S), Em, andb_false_r. rewrite amain_true by auto. spl; auto. apply bext_refl.
      - destruct (cstr_dec n n_main) as [->|D].
        + destruct (wrap_main_moved rec st a ch _ f S Em Y) as (st1 & ch1 & f1 & E1 & S1 & Y1 & B1 & G1 & _); [unfold slack in Hg; rewrite Em in Hg; lia|].
          exists st1, ch1, f1. spl; auto. unfold slack. rewrite Em, G1.
          assert (Hm1 : a_main (amain a n_main) = true).
          { unfold SpecCore.amain. rewrite CoreMaps.cstr_eqb_refl, Em. cbn [andb negb]. 
            match goal with |- context [SpecCore.abinds _ _ (ause ?x ?t') ?t ?u] => destruct (abinds_frame ex t u (ause x t')) as (-> & _) end. cbn [ause a_main].
            match goal with |- context [SpecCore.abinds _ _ (ause ?x ?t') ?t ?u] => destruct (abinds_frame ex t u (ause x t')) as (-> & _) end. reflexivity. }
          rewrite Hm1. lia.
        + exists st, ch, f. unfold wrap_main. rewrite strcmp_main, (CoreMaps.cstr_eqb_neq _ _ D). cbn [andb]. rewrite amain_other by auto. spl; auto. apply bext_refl. }
    destruct HM as (st1 & ch1 & f1 & EM & S1 & Y1 & B1 & G1). destruct (B1 _ _ _ He Hn) as [He1 Hn1].
    destruct (wrap_one_spec e ex rl (wrap_body e rec) False st a ch _ start n x num pr st1 (amain a n) ch1 Hps Hnum S Hn He EM S1 Hn1 He1 (amain_prio ex e a n _) ltac:(tauto) Hni)
      as (st2 & ch2 & pr2 & nb & EO2 & S2 & Hnf & HP & HT & HB & Hto & Hta & _ & Hch & Hns & _ & _).
    replace (mkUB n (en_wrapper x) (en_handle x)) with u in * by (destruct u; reflexivity). cbn [en_tool x] in S2, Hnf.
    rewrite EO2. cbn [bind]. set (r1 := abind (amain a n) tool u) in *.
    assert (B2 : bext (s_b st1) (s_b st2)) by (apply bext_eq; auto).
    assert (B12 : bext (s_b st) (s_b st2)) by (eapply bext_trans; eauto).
    destruct Y1 as [Z1 Z2 Z3 Z4 Z5]. destruct (tracks_exact all HND _ _ _ HT Z2 f1 Z1 Z5) as (f2 & L2 & G2 & _).
    assert (Y2 : lgood st2 f2) by (constructor; rewrite ?HP; auto; lia).
    assert (Hs2 : slack (fst r1) = slack (amain a n)) by (unfold slack, r1; rewrite abind_main; auto).
    destruct (IH st2 (fst r1) ch2 todo (Datatypes.S start) pr2 f2 S2) as (st3 & ch3 & pr3 & f3 & EL & S3 & Y3 & Hg3 & G3).
    + intros k v Hk. destruct (Hent (Datatypes.S k) v Hk) as [H1 H2]. rewrite Nat.add_succ_r in H1, H2. apply (B12 _ _ _ H1 H2).
    + auto.
    + lia.
    + eapply new_step_inv; eauto.
    + rewrite EL. exists st3, ch3, pr3, f3.
      assert (ER : fst (abinds_user a tool (u :: us)) = fst (abinds_user (fst r1) tool us)).
      { cbn [SpecCore.abinds_user]. change (abind (amain a (ub_name u)) tool u) with r1. destruct r1 as [a1 g1]. cbn [fst snd].
        destruct (abinds_user a1 tool us). reflexivity. }
      rewrite ER. spl; auto. lia.
Qed.

Lemma wrap_any_good rec st a ch todo ubs tool f : srel st a ch todo -> lgood st f -> l_gen (s_l st) + slack a < two32 - 1 ->
  let r := abinds_user (ause a (tool_of tool)) (tool_of tool) ubs in
  exists st' ch' c f', wrap_tool e (wrap_body e rec) st ubs tool = Ok (st', c) /\ srel st' (fst r) ch' todo /\ lgood st' f' /\
    0 <= l_gen (s_l st') /\ l_gen (s_l st') + slack (fst r) = l_gen (s_l st) + 1 + slack a.
Proof.
  intros S Y Hg r. set (t := tool_of tool) in *. pose proof (lg_gen _ _ Y) as Hg0. assert (Hsl : 0 <= slack a) by (unfold slack; destruct (a_main a); lia).
  destruct (wrap_tool_spec e ex rl Hps (wrap_body e rec) False false st a ch todo ubs tool S ltac:(tauto) ltac:(discriminate)) as (st' & ch' & E & S' & B & M).
  { intros u _. apply main_ok_full. auto. }
  fold t in E, S', M. fold r in E, S', M.
  destruct (wrap_tool_enter (wrap_body e rec) st a ch todo ubs tool S) as (st1 & EW & S1 & B1 & P1 & L1 & Hent). fold t in S1, Hent.
  rewrite (u32_gen (l_gen (s_l st))) in L1 by lia.
  assert (Y1 : lgood st1 f).
  { destruct Y as [Y1 Y2 Y3 Y4 Y5]. constructor; rewrite ?P1, ?L1; auto; cbn [l_gen]; [apply linv_gen; [auto|lia]|lia]. }
  assert (G1 : l_gen (s_l st1) = l_gen (s_l st) + 1) by (rewrite L1; reflexivity).
  exists st', ch', (if snd r then GOTCHA_FUNCTION_NOT_FOUND else GOTCHA_SUCCESS). pose proof E as E'. rewrite (EW _ eq_refl) in E.
  destruct (Nat.eq_dec (length ubs) 0) as [E0|E0].
  { destruct ubs; [|discriminate]. cbn [length wrap_loop bind pr_new pr_not_found] in *. injection E as <-.
    exists f. split; [exact E'|]. split; [exact S'|]. split; [auto|]. split; [lia|]. unfold r. cbn. unfold slack. cbn. lia. }
  destruct (wrap_loop_good rec t (Z.of_nat (length ubs)) ltac:(lia) ubs st1 (ause a t) ch todo _ (mkPr 0 None) f S1 Hent Y1) as (st2 & ch2 & pr2 & f2 & EL & S2 & Y2 & Hg2 & G2).
  { rewrite G1. change (slack (ause a t)) with (slack a). lia. }
  { exact I. }
  rewrite EL in E. cbn [bind] in E. fold r in G2, S2. change (slack (ause a t)) with (slack a) in G2. rewrite G1 in G2.
  destruct (pr_new pr2) as [nt|].
  - destruct (update_all_library_gots e nt st2) as [st3|] eqn:EU; [|discriminate]. cbn [bind] in E. injection E as <- _.
    unfold update_all_library_gots in EU. destruct (update_gots e _ nt _ _) as [[l' p']|] eqn:EG; [|discriminate]. cbn [bind] in EU. injection EU as <-.
    destruct Y2 as [Z1 Z2 Z3 Z4 Z5]. destruct (update_gots_linv e all HND _ nt _ _ f2 _ _ _ Z2 Z1 Z5 EG) as (f3 & L3 & G3 & PM3 & PF3).
    exists f3. split; [exact E'|]. split; [auto|]. split; [constructor; cbn [s_l s_p set_p set_l]; rewrite ?PM3, ?G3; auto|].
    cbn [s_l set_p set_l]. rewrite G3. auto.
  - cbn [bind] in E. injection E as <- _. exists f2. split; [exact E'|]. split; [auto|]. split; [auto|]. auto.
Qed.

(** *** the other operations *)
Lemma finish_good st a ch {todo} f : srel st a ch todo -> lgood st f ->
  exists st' f', dlopen_finish e st = Ok st' /\ srel st' (aresolve ex a) ch todo /\ lgood st' f' /\
    l_gen (s_l st') = l_gen (s_l st) /\ p_maps (s_p st') = p_maps (s_p st) /\ p_filter (s_p st') = p_filter (s_p st) /\
    (forall m n x w, accepted (p_filter (s_p st)) (p_maps (s_p st)) m -> slot rl m n x -> hdw a n = Some w ->
       genof (s_l st) f m <> l_gen (s_l st) \/ p_mem (s_p st) x = w -> p_mem (s_p st') x = w).
Proof.
  intros S Y. unfold dlopen_finish.
  destruct (resolve_loop e ex rl False st a ch S) as (st1 & E1 & S1 & P1 & T1 & Bu & Bt & Btb). rewrite E1. cbn [bind].
  pose proof Y as [Y1 Y2 Y3 Y4 Y5].
  destruct (tracks_exact all HND _ _ _ T1 Y2 f Y1 Y5) as (f1 & L1 & G1 & GO1).
  assert (Z1 : lgood st1 f1) by (constructor; rewrite ?P1; auto; lia).
  destruct (update_good st1 (aresolve ex a) ch todo f1 (b_fn (s_b st1)) (fun n => hd_error (ch n)) S1 (br_fn _ _ _ _ _ (sr_b _ _ _ _ _ _ _ _ S1)))
    as (st2 & f2 & EU & S2 & Z2 & B2 & G2 & PM2 & PF2 & U1 & _); auto.
  rewrite EU. exists st2, f2. split; [reflexivity|]. split; [auto|]. split; [auto|]. split; [congruence|]. split; [congruence|]. split; [congruence|].
  intros m n x w Ha Hs Hw Hor. rewrite P1, G1 in U1. eapply U1; [exact Ha|exact Hs|exact Hw| |rewrite GO1; exact Hor].
  intros Hn. pose proof (hd_none _ _ _ _ _ S Hn) as H. congruence.
Qed.

Lemma init_good rec st a : prel e ex rl st a -> (forall m, In m (p_maps (s_p st)) -> In m all) -> NoDup (map key_of (p_maps (s_p st))) -> slots_fun rl (p_maps (s_p st)) ->
  exists st' ch f, gotcha_init e (wrap_body e rec) st = Ok st' /\ srel st' (ainit a) ch [] /\ lgood st' f /\ l_gen (s_l st') = 1 /\ moved st a st' (ainit a).
Proof.
  intros P Hin Hnd SF. unfold gotcha_init. rewrite (pr_i _ _ _ _ _ P). unfold setup_hash_tables. cbn [s_l s_b s_init s_main s_p].
  destruct (kmap_create (D:=nat) (lkeys all) link_map_hash link_map_cmp lkey_eqb (e_ps e) 128 Hps ltac:(lia)) as (lt & Elt & Klt). rewrite Elt. cbn [bind].
  destruct (smap_create (e_ps e) 4096 Hps ltac:(lia)) as (ft & Eft & Hft). rewrite Eft. cbn [bind].
  destruct (smap_create (e_ps e) 128 Hps ltac:(lia)) as (nt & Ent & Hnt). rewrite Ent. cbn [bind].
  match goal with |- context[wrap_body e rec ?s _ _] => set (st0 := s) end.
  set (a0 := mkA true (a_main a) (a_tools a) (a_stack a) (a_orig a) (a_maps a)).
  assert (S0 : srel st0 a0 (fun _ => []) []).
  { constructor; cbn; [reflexivity|reflexivity|rewrite (pr_m _ _ _ _ _ P), (pr_am _ _ _ _ _ P); reflexivity|apply (pr_maps _ _ _ _ _ P)|apply (pr_lib _ _ _ _ _ P)| | | | |tauto|tauto].
    - rewrite (pr_b _ _ _ _ _ P). cbn. constructor; cbn.
      + exists []. constructor; cbn; try constructor. intros t [].
      + rewrite (pr_at _ _ _ _ _ P). reflexivity.
      + intros i Hi. lia.
      + intros n. rewrite (pr_as _ _ _ _ _ P). constructor.
      + reflexivity.
      + constructor.
      + intros n i [].
      + intros i [].
      + constructor.
      + intros i ib Hi. destruct i; discriminate.
      + exact Hft.
    - exists (fun _ => None). split; [auto|]. split; [discriminate|]. intros n. rewrite (pr_as _ _ _ _ _ P). tauto.
    - intros n _. apply (pr_ao _ _ _ _ _ P).
    - rewrite (pr_l _ _ _ _ _ P). destruct (create_spec (K:=lkey) (D:=nat) (e_ps e) 128 link_map_hash link_map_cmp Hps ltac:(lia)) as (lt' & Elt' & Ilt & _).
      assert (lt' = lt) by congruence. subst lt'. exists [], []. split; [exact Ilt|]. intros k i []. }
  assert (Y0 : lgood st0 (fun _ => None)).
  { constructor; cbn; auto.
    - rewrite (pr_l _ _ _ _ _ P). constructor; cbn; auto; [discriminate|discriminate|]. intros i lb Hi. destruct i; discriminate.
    - rewrite (pr_l _ _ _ _ _ P). cbn. lia. }
  destruct (wrap_body_moved rec st0 a0 (fun _ => []) [] (dl_binds e) (Some n_gotcha) (fun _ => None) S0) as (st1 & ch1 & c1 & f1 & E1 & S1 & Y1 & B1 & G1 & M1).
  { left. intros u [<-|[<-|[]]]; cbn; apply names_neq. }
  { exact Y0. }
  { cbn. rewrite (pr_l _ _ _ _ _ P). cbn. unfold two32. lia. }
  rewrite E1. cbn [bind tool_of] in *. exists st1, ch1, f1. unfold SpecCore.ainit. rewrite (pr_ai _ _ _ _ _ P). fold a0.
  split; [reflexivity|]. split; [auto|]. split; [auto|]. split; [|exact M1]. rewrite G1. cbn. rewrite (pr_l _ _ _ _ _ P). reflexivity.
Qed.
End All.
End Sync.
