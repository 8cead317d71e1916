(** gotcha_wrap, gotcha_init and the nested calls for main. *)
From Verif Require Import Base ListFacts HashModel HashProofs SpecHash HashTrace ElfModel ToolModel CoreModel SpecCore SpecRun ToolProofs CoreMaps CoreRel CoreLib CoreStep CoreWrap.
From Coq Require Import Permutation Sorted.

Lemma tbl_ok_mono ibs ibs' t (G G' : cstr -> Z -> Prop) : tbl_ok ibs t G ->
  (forall i ib, nth_error ibs i = Some ib -> exists ib', nth_error ibs' i = Some ib' /\ ib_user ib' = ib_user ib) ->
  (forall n w, G n w -> G' n w) -> tbl_ok ibs' t G'.
Proof.
  intros (l & c & I & H) H1 H2. exists l, c. split; [auto|]. intros n b Hb. destruct (H _ _ Hb) as (ib & A & B).
  destruct (H1 _ _ A) as (ib' & C & D). exists ib'. split; [auto|]. rewrite D. auto.
Qed.

Lemma tbl_ok_add ibs t (G : cstr -> Z -> Prop) n b ib t' : tbl_ok ibs t G -> nth_error ibs b = Some ib -> G n (ub_wrapper (ib_user ib)) ->
  addto_hashtable t n b = Ok t' -> tbl_ok ibs t' G.
Proof.
  intros (l & c & I & H) Hb Hg E. destruct (addto_spec t l c n b I) as (t1 & l1 & c1 & E1 & I1 & P & _).
  assert (t1 = t') by congruence. subst t1. exists l1, ((n, b) :: c1). split; [auto|]. intros m b' [Hm|Hm].
  - injection Hm as <- <-. eauto.
  - apply (Permutation_in _ (Permutation_sym P)) in Hm. eauto.
Qed.

Lemma bext_user bs bs' tools stack ch todo i ib : brel bs tools stack ch todo -> bext bs bs' -> nth_error (b_ib bs) i = Some ib ->
  exists ib', nth_error (b_ib bs') i = Some ib' /\ ib_user ib' = ib_user ib.
Proof.
  intros R B Hi. assert (Hlt : (i < length (b_ib bs))%nat) by (eapply nth_error_Some_lt; eauto).
  destruct (entry_of bs i) as [x|] eqn:E; [|exfalso; eapply (br_entry _ _ _ _ _ R); eauto].
  assert (Hn : name_of bs i = Some (ub_name (ib_user ib))) by (unfold name_of; rewrite Hi; reflexivity).
  destruct (B _ _ _ E Hn) as [E' Hn']. destruct (entry_binding _ _ _ _ E Hn) as (ib1 & A1 & A2). destruct (entry_binding _ _ _ _ E' Hn') as (ib2 & B1 & B2).
  exists ib2. split; [auto|]. congruence.
Qed.

Section Loop.
Context (e : env) (ex : lmap -> cstr -> option Z) (rl : lmap -> list (Z * cstr)).
Context (Hps : 48 <= e_ps e).
Notation abind := (abind ins_c ex).
Notation abinds := (abinds ins_c ex).
Notation amain := (amain ins_c ex e).
Notation abinds_user := (abinds_user ins_c ex e).
Notation ainit := (ainit ins_c ex e).
Notation srel := (srel e ex rl).

(** memory changes only at relocation slots of accepted libraries, to a wrapper installed for that name *)
Definition memf (a : astate) (p p' : pstate) : Prop :=
  p_filter p' = p_filter p /\ p_maps p' = p_maps p /\
  (forall x, p_mem p' x = p_mem p x \/
    exists m n, accepted (p_filter p) (p_maps p) m /\ slot rl m n x /\ In (p_mem p' x) (map en_wrapper (a_stack a n))) /\
  wrote (fun x v => exists m n, accepted (p_filter p) (p_maps p) m /\ slot rl m n x /\ In v (map en_wrapper (a_stack a n))) (p_log p) (p_log p').

Lemma memf_refl a p : memf a p p.
Proof. repeat split; auto using wrote_refl. Qed.
Lemma memf_trans a1 a2 p1 p2 p3 : memf a1 p1 p2 -> memf a2 p2 p3 -> sub_stack a1 a2 -> memf a2 p1 p3.
Proof.
  intros (F1 & M1 & H1 & U1) (F2 & M2 & H2 & U2) S. split; [congruence|]. split; [congruence|]. split.
  2:{ eapply wrote_trans; [eapply wrote_incl; [|exact U1]|eapply wrote_incl; [|exact U2]]; cbv beta.
      - intros x v (m & n & A & B & C). exists m, n. split; [auto|]. split; [auto|]. apply in_map_iff in C. destruct C as (y & C1 & C2).
        apply in_map_iff. exists y. auto.
      - intros x v (m & n & A & B & C). exists m, n. rewrite F1, M1 in A. auto. }
  intros x.
  destruct (H2 x) as [E|(m & n & A & B & C)].
  - destruct (H1 x) as [E'|(m & n & A & B & C)]; [left; congruence|]. right. exists m, n. split; [auto|]. split; [auto|].
    rewrite E. apply in_map_iff in C. destruct C as (y & C1 & C2). apply in_map_iff. exists y. auto.
  - right. exists m, n. rewrite F1, M1 in A. auto.
Qed.

Definition main_ok (rec : wrap_fun) (F : Prop) (mm : bool) (n : cstr) : Prop :=
  forall st a ch todo, srel F st a ch todo -> (mm = true -> a_main a = true) ->
  exists st1 ch1, wrap_main e rec st n = Ok st1 /\ srel F st1 (amain a n) ch1 todo /\ bext (s_b st) (s_b st1) /\
    memf (amain a n) (s_p st) (s_p st1).

Lemma strcmp_main n : libc_strcmp n n_main =? 0 = cstr_eqb n n_main.
Proof.
  destruct (cstr_dec n n_main) as [->|D].
  - rewrite cstr_eqb_refl. apply Z.eqb_eq. apply libc_strcmp_eq0. reflexivity.
  - rewrite (cstr_eqb_neq _ _ D). apply Z.eqb_neq. intros H. apply libc_strcmp_eq0 in H. auto.
Qed.

Lemma main_ok_other rec F mm n : n <> n_main -> main_ok rec F mm n.
Proof.
  intros D st a ch todo S _. exists st, ch. unfold wrap_main. rewrite strcmp_main, (cstr_eqb_neq _ _ D). cbn [andb].
  rewrite amain_other by auto. split; [reflexivity|]. split; [auto|]. split; [apply bext_refl|apply memf_refl].
Qed.
Lemma main_ok_done rec F n : main_ok rec F true n.
Proof.
  intros st a ch todo S H. exists st, ch. unfold wrap_main. rewrite (sr_main _ _ _ _ _ _ _ _ S), (H eq_refl), andb_false_r.
  rewrite amain_true by auto. split; [reflexivity|]. split; [auto|]. split; [apply bext_refl|apply memf_refl].
Qed.

(** the remaining bindings are fresh for the stacks *)
Definition fresh_rest (a : astate) (ubs : list ubind) : Prop :=
  NoDup (map (fun u => (ub_name u, ub_wrapper u)) ubs) /\
  (forall u x, In u ubs -> In x (a_stack a (ub_name u)) -> en_wrapper x <> ub_wrapper u) /\
  (a_main a = true \/ forall u, In u ubs -> ~ In (ub_wrapper u) [e_w_libc e; e_w_main e]).

Lemma fresh_rest_amain a n ubs : fresh_rest a ubs -> forall u x, In u ubs -> In x (a_stack (amain a n) (ub_name u)) -> en_wrapper x <> ub_wrapper u.
Proof.
  intros (_ & H2 & H3) u x Hu Hx. apply amain_new in Hx. destruct Hx as [Hx|[Hm Hx]]; [auto|].
  destruct H3 as [H3|H3]; [congruence|]. intros E. rewrite E in Hx. eapply H3; eauto.
Qed.

Lemma fresh_rest_step a t u r : fresh_rest a (u :: r) -> fresh_rest (fst (abind (amain a (ub_name u)) t u)) r.
Proof.
  intros H. pose proof (fresh_rest_amain a (ub_name u) _ H) as HA. destruct H as (H1 & H2 & H3). inversion H1; subst.
  split; [auto|]. split.
  - intros v x Hv Hx. apply abind_new in Hx. destruct Hx as [Hx|[En Ex]]; [apply HA; [right; auto|auto]|].
    subst x. cbn. intros E. apply H4. apply in_map_iff. exists v. split; [congruence|auto].
  - rewrite abind_main. destruct H3 as [H3|H3]; [left; apply amain_main; auto|right; intros; apply H3; right; auto].
Qed.

Definition Gst (a : astate) (n : cstr) (w : Z) : Prop := In w (map en_wrapper (a_stack a n)).
Definition new_ok (st : state) (a : astate) (pr : progress) : Prop :=
  match pr_new pr with Some t => tbl_ok (b_ib (s_b st)) t (Gst a) | None => True end.

Lemma Gst_sub a a' n w : sub_stack a a' -> Gst a n w -> Gst a' n w.
Proof. intros S H. apply in_map_iff in H. destruct H as (x & A & B). apply in_map_iff. exists x. auto. Qed.

Lemma wrap_loop_spec rec F mm tool num : 0 < num -> forall ubs st a ch todo start pr,
  srel F st a ch (seq start (length ubs) ++ todo) ->
  (forall k u, nth_error ubs k = Some u -> entry_of (s_b st) (start + k)%nat = Some (mkE tool (ub_wrapper u) (ub_handle u)) /\
                                           name_of (s_b st) (start + k)%nat = Some (ub_name u)) ->
  (F -> fresh_rest a ubs) -> (mm = true -> a_main a = true) -> (forall u, In u ubs -> main_ok rec F mm (ub_name u)) ->
  new_ok st a pr -> 0 <= pr_not_found pr ->
  let r := abinds_user a tool ubs in
  exists st' ch' pr', wrap_loop e rec num (length ubs) start (st, pr) = Ok (st', pr') /\ srel F st' (fst r) ch' todo /\
    0 <= pr_not_found pr' /\ (pr_not_found pr' =? 0) = (pr_not_found pr =? 0) && negb (snd r) /\
    bext (s_b st) (s_b st') /\ memf (fst r) (s_p st) (s_p st') /\ new_ok st' (fst r) pr'.
Proof.
  intros Hnum. induction ubs as [|u us IH]; intros st a ch todo start pr S Hent Hfr Hmm Hmain Hnew Hpos; cbv zeta.
  - cbn. exists st, ch, pr. cbn in S. rewrite andb_true_r. spl; auto; [apply bext_refl|apply memf_refl].
  - cbn [length seq app] in S. cbn [wrap_loop length].
    destruct (Hent 0%nat u eq_refl) as [He Hn]. rewrite Nat.add_0_r in He, Hn.
    set (x := mkE tool (ub_wrapper u) (ub_handle u)) in *. set (n := ub_name u) in *.
    destruct (Hmain u (or_introl eq_refl) st a ch _ S Hmm) as (st1 & ch1 & EM & S1 & B1 & M1). fold n in EM, S1, M1.
    destruct (B1 _ _ _ He Hn) as [He1 Hn1].
    assert (Hf1 : F -> ~ In (en_wrapper x) (map en_wrapper (a_stack (amain a n) n))).
    { intros f H. apply in_map_iff in H. destruct H as (y & A1 & A2). apply (fresh_rest_amain a n _ (Hfr f) u y); [left; auto|exact A2|exact A1]. }
    assert (Hni : new_inv (pr_new pr)).
    { unfold new_ok in Hnew. unfold new_inv. destruct (pr_new pr); [|auto]. destruct Hnew as (l & c & I & _). eauto. }
    destruct (wrap_one_spec e ex rl rec F st a ch _ start n x num pr st1 (amain a n) ch1 Hps Hnum S Hn He EM S1 Hn1 He1 (amain_prio ex e a n _) Hf1 Hni)
      as (st2 & ch2 & pr2 & nb & EO & S2 & Hnf & HP & HT & HB & Hto & Hta & _ & Hch & Hns & Hnb1 & Hnb2).
    replace (mkUB n (en_wrapper x) (en_handle x)) with u in * by (destruct u; reflexivity). cbn [en_tool x] in S2, Hnf.
    rewrite EO. cbn [bind].
    assert (B2 : bext (s_b st1) (s_b st2)) by (apply bext_eq; auto).
    assert (B12 : bext (s_b st) (s_b st2)) by (eapply bext_trans; eauto).
    set (r1 := abind (amain a n) tool u) in *.
    assert (Sub : sub_stack a (fst r1)).
    { intros m y H. apply abind_sub. apply amain_sub. auto. }
    assert (Hnew2 : new_ok st2 (fst r1) pr2).
    { assert (HM : forall t, tbl_ok (b_ib (s_b st)) t (Gst a) -> tbl_ok (b_ib (s_b st2)) t (Gst (fst r1))).
      { intros t Ht. eapply tbl_ok_mono; [exact Ht| |].
        - intros i ib Hi. eapply bext_user; [apply (sr_b _ _ _ _ _ _ _ _ S)|exact B12|exact Hi].
        - intros m w. apply Gst_sub. auto. }
      unfold new_ok in *. unfold new_step in Hns. destruct nb.
      - destruct Hns as (t0 & t1 & A1 & A2 & ->). destruct (Hnb1 eq_refl) as [Hhd _].
        destruct (B12 _ _ _ He Hn) as [He2 Hn2]. destruct (entry_binding _ _ _ _ He2 Hn2) as (ib2 & Ei & Eu).
        eapply tbl_ok_add; [|exact Ei| |exact A2].
        + destruct (pr_new pr) as [t|]; [subst t0; auto|].
          destruct (create_spec (D:=nat) (e_ps e) (num * 2) strhash libc_strcmp Hps ltac:(lia)) as (t' & Et & I & _).
          assert (t' = t0) by congruence. subst t'. exists [], []. split; [auto|]. intros ? ? [].
        + rewrite Eu. cbn [ub_wrapper]. unfold Gst. apply in_map.
          pose proof (br_stack _ _ _ _ _ (sr_b _ _ _ _ _ _ _ _ S2) n) as HF.
          assert (Hin : In start (ch2 n)) by (destruct (ch2 n); [discriminate|injection Hhd as ->; left; auto]).
          destruct (Forall2_In_l _ _ _ _ HF Hin) as (y & Hy1 & Hy2). congruence.
      - rewrite Hns. destruct (pr_new pr); [|auto]. auto. }
    destruct (IH st2 (fst r1) ch2 todo (Datatypes.S start) pr2 S2) as (st3 & ch3 & pr3 & EL & S3 & P3 & Z3 & B3 & M3 & N3).
    + intros k v Hk. destruct (Hent (Datatypes.S k) v Hk) as [H1 H2]. rewrite Nat.add_succ_r in H1, H2. apply (B12 _ _ _ H1 H2).
    + intros f. apply fresh_rest_step. auto.
    + intros Hm. unfold r1. rewrite abind_main. apply amain_main. auto.
    + intros v Hv. apply Hmain. right. auto.
    + auto.
    + rewrite Hnf. destruct (snd r1); lia.
    + rewrite EL. exists st3, ch3, pr3.
      assert (ER : abinds_user a tool (u :: us) = (fst (abinds_user (fst r1) tool us), snd r1 || snd (abinds_user (fst r1) tool us))).
      { cbn [SpecCore.abinds_user]. change (abind (amain a (ub_name u)) tool u) with r1. destruct r1 as [a1 f1]. cbn [fst snd].
        destruct (abinds_user a1 tool us). reflexivity. }
      rewrite ER. cbn [fst snd]. spl; auto.
      * rewrite Z3, Hnf. destruct (snd r1); cbn [orb negb].
        -- destruct (Z.eqb_spec (pr_not_found pr + 1) 0); [lia|]. rewrite andb_false_r. reflexivity.
        -- rewrite Z.add_0_r. reflexivity.
      * eapply bext_trans; eauto.
      * eapply memf_trans; [exact M1|rewrite <- HP; exact M3|].
        intros m y H. apply abinds_user_sub. apply abind_sub. auto.
Qed.

(** *** gotcha_wrap after gotcha_init *)
Definition tool_of (t : option cstr) : cstr := match t with Some t => t | None => n_unspecified end.

Lemma srel_use_gen F st a ch todo t ubs : srel F st a ch todo ->
  (F -> NoDup (map ub_handle ubs) /\ (forall i ib u, nth_error (b_ib (s_b st)) i = Some ib -> In u ubs -> ub_handle (ib_user ib) <> ub_handle u) /\
        (a_main a = true \/ forall u, In u ubs -> ~ In (ub_handle u) [e_h_libc e; e_h_main e] /\ ~ In (ub_wrapper u) [e_w_libc e; e_w_main e])) ->
  exists ts tool bs bt,
    get_or_create_tool (e_ps e) (b_tools (s_b st)) t = Ok (ts, tool) /\
    add_binding_to_tool e (set_btools ts (set_handles (null_handles ubs (b_handles (s_b st))) (s_b st))) tool ubs = Ok (bs, length (b_tables (s_b st))) /\
    nth_error (b_tables bs) (length (b_tables (s_b st))) = Some bt /\ bt_start bt = length (b_ib (s_b st)) /\
    (forall g, srel F (set_b bs (set_l (mkLS (l_table (s_l st)) (l_heap (s_l st)) (l_list (s_l st)) g) st)) (ause a t) ch
       (seq (length (b_ib (s_b st))) (length ubs) ++ todo)) /\
    bext (s_b st) bs /\
    (forall k u, nth_error ubs k = Some u -> entry_of bs (length (b_ib (s_b st)) + k)%nat = Some (mkE t (ub_wrapper u) (ub_handle u)) /\
                                             name_of bs (length (b_ib (s_b st)) + k)%nat = Some (ub_name u)).
Proof.
  intros S HF. pose proof (sr_b _ _ _ _ _ _ _ _ S) as R. destruct (br_tools _ _ _ _ _ R) as [l TO].
  destruct (get_or_create_prios (e_ps e) _ l t Hps TO) as (ts & l' & tool & tt & A1 & A2 & A3 & A4 & A5 & A6).
  destruct (add_spec e (s_b st) _ _ _ _ ubs ts l' tool tt R Hps A2) as (bs & bt & B1 & B2 & B3 & B4 & B5 & B6 & B7 & B8 & B9).
  { intros j x Hj. destruct (A6 j x Hj) as (x' & H1 & H2). exists x'. split; [auto|]. unfold tinfo in H2. congruence. }
  { exact A3. }
  exists ts, tool, bs, bt. split; [auto|]. split; [auto|]. split; [auto|]. split; [auto|]. split; [|split; [auto|]].
  2:{ intros k u Hu. destruct (B8 k u Hu). rewrite <- A4. auto. }
  intros g. constructor; cbn; try apply S.
  - rewrite (br_prios _ _ _ _ _ R) in A5. rewrite <- A5. exact B4.
  - destruct (sr_nf _ _ _ _ _ _ _ _ S) as (gm & H1 & H2 & H3). exists gm. rewrite B5. auto.
  - intros f. destruct (HF f) as (H1 & H2 & _). apply B9; auto. apply S. auto.
  - intros f Hm i ib Hi. destruct (HF f) as (_ & _ & [H3|H3]); [congruence|].
    rewrite B6 in Hi. destruct (le_lt_dec (length (b_ib (s_b st))) i) as [L|L].
    + rewrite nth_error_app2 in Hi by auto. rewrite nth_error_map in Hi. destruct (nth_error ubs (i - length (b_ib (s_b st)))) as [u|] eqn:Eu; [|discriminate].
      cbn in Hi. injection Hi as <-. cbn. apply H3. eapply nth_error_In; eauto.
    + rewrite nth_error_app1 in Hi by auto. eapply (sr_int _ _ _ _ _ _ _ _ S); eauto.
Qed.

Definition fresh_call (st : state) (a : astate) (ubs : list ubind) : Prop :=
  NoDup (map ub_handle ubs) /\ (forall i ib u, nth_error (b_ib (s_b st)) i = Some ib -> In u ubs -> ub_handle (ib_user ib) <> ub_handle u) /\
  (a_main a = true \/ forall u, In u ubs -> ~ In (ub_handle u) [e_h_libc e; e_h_main e] /\ ~ In (ub_wrapper u) [e_w_libc e; e_w_main e]) /\
  NoDup (map (fun u => (ub_name u, ub_wrapper u)) ubs) /\
  (forall u x, In u ubs -> In x (a_stack a (ub_name u)) -> en_wrapper x <> ub_wrapper u).

Lemma wrap_tool_spec rec F mm st a ch todo ubs tool :
  srel F st a ch todo -> (F -> fresh_call st a ubs) -> (mm = true -> a_main a = true) -> (forall u, In u ubs -> main_ok rec F mm (ub_name u)) ->
  let r := abinds_user (ause a (tool_of tool)) (tool_of tool) ubs in
  exists st' ch', wrap_tool e rec st ubs tool = Ok (st', if snd r then GOTCHA_FUNCTION_NOT_FOUND else GOTCHA_SUCCESS) /\
    srel F st' (fst r) ch' todo /\ bext (s_b st) (s_b st') /\ memf (fst r) (s_p st) (s_p st').
Proof.
  intros S HF Hmm Hmain r. unfold wrap_tool. fold (tool_of tool). set (t := tool_of tool) in *.
  destruct (srel_use_gen F st a ch todo t ubs S) as (ts & ti & bs & bt & E1 & E2 & E3 & E4 & S1 & B1 & Hent).
  { intros f. destruct (HF f) as (A & B & C & _). auto. }
  cbn [s_b set_b b_tools set_handles b_handles]. rewrite E1. cbn [bind]. cbn [s_b set_b set_l s_l].
  change (set_btools ts (set_handles (null_handles ubs (b_handles (s_b st))) (s_b st))) with
    (set_btools ts (set_handles (null_handles ubs (b_handles (s_b st))) (s_b st))) in *.
  cbn [set_b s_b s_init s_main s_l s_p set_l] in *. rewrite E2. cbn [bind]. rewrite (deref_Ok _ _ _ E3). cbn [bind]. rewrite E4.
  destruct ubs as [|u0 us].
  - cbn [length wrap_loop bind pr_new pr_not_found]. exists (set_b bs (set_l (mkLS (l_table (s_l st)) (l_heap (s_l st)) (l_list (s_l st)) (u32 (l_gen (s_l st) + 1))) st)), ch.
    split; [reflexivity|]. split; [apply (S1 _)|]. split; [exact B1|apply memf_refl].
  - set (ubs := u0 :: us) in *.
    destruct (wrap_loop_spec rec F mm t (Z.of_nat (length ubs)) ltac:(cbn [length ubs]; lia) ubs _ _ _ _ (length (b_ib (s_b st))) (mkPr 0 None)
       (S1 (u32 (l_gen (s_l st) + 1)))) as (st2 & ch2 & pr2 & EL & S2 & P2 & Z2 & B2 & M2 & N2).
    + exact Hent.
    + intros f. destruct (HF f) as (A & B & C & D & E). split; [auto|]. split; [exact E|]. cbn [ause a_main].
      destruct C as [C|C]; [auto|right]. intros u Hu. apply C. auto.
    + exact Hmm.
    + exact Hmain.
    + exact I.
    + cbn. lia.
    + fold r in S2, Z2, M2, N2.
      cbn [set_b s_b s_init s_main s_l s_p set_l] in EL.
      match goal with |- context[wrap_loop e rec _ _ _ ?sp] => match type of EL with wrap_loop _ _ _ _ _ ?sp' = _ => change sp with sp' end end.
      rewrite EL. cbn [bind].
      cbn [pr_not_found] in Z2. rewrite Z2. cbn [Z.eqb andb]. rewrite negb_involutive.
      unfold new_ok in N2. destruct (pr_new pr2) as [nt|]; cbn [bind].
      * unfold update_all_library_gots. rewrite (sr_maps _ _ _ _ _ _ _ _ S2).
        destruct (update_gots_base e ex rl _ nt _ N2 (a_maps (fst r)) (s_l st2) (s_p st2) (sr_lib _ _ _ _ _ _ _ _ S2) (sr_l _ _ _ _ _ _ _ _ S2))
          as (l3 & p3 & EG & LB & LG & PM & PF & W & U). rewrite EG. cbn [bind].
        eexists _, ch2. split; [reflexivity|]. split; [|split].
        -- constructor; cbn; try apply S2; auto. rewrite PM. apply S2.
        -- eapply bext_trans; [exact B1|exact B2].
        -- eapply memf_trans; [exact M2| |intros ? ?; auto]. split; [auto|]. split; [auto|]. split.
           2:{ eapply wrote_incl; [|exact U]. intros x v (pre & m & rest & n & A1 & A2 & A3 & A4). exists m, n. split; [|auto].
               exists pre, rest. split; [|auto]. rewrite (sr_maps _ _ _ _ _ _ _ _ S2). auto. }
           intros x.
           destruct (W x) as [Hx|(pre & m & rest & n & A1 & A2 & A3 & A4)]; [auto|]. right. exists m, n. cbn [s_p set_p]. split; [|auto].
           exists pre, rest. split; [|auto]. rewrite (sr_maps _ _ _ _ _ _ _ _ S2). auto.
      * exists st2, ch2. split; [reflexivity|]. split; [auto|]. split; [eapply bext_trans; [exact B1|exact B2]|auto].
Qed.
End Loop.
