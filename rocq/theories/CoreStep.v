(** The body of the loop of gotcha_wrap refines one step of the abstract machine. *)
From Verif Require Import Base ListFacts HashModel HashProofs SpecHash HashTrace ElfModel ToolModel CoreModel SpecCore SpecRun ToolProofs CoreMaps CoreRel CoreLib.
From Coq Require Import Permutation Sorted.

(** *** setting a wrappee keeps the chains *)
Lemma brel_wrappee bs tools stack ch todo j v : brel bs tools stack ch todo ->
  brel (set_ib (upd (b_ib bs) j (set_iwrappee v)) bs) tools stack ch todo.
Proof.
  intros [R1 R2 R3 R4 R5 R6 R7 R8 R9 R10 R11]. set (bs' := set_ib _ bs).
  assert (EB : map buser (b_ib bs') = map buser (b_ib bs)) by (cbn; apply buser_wrappee).
  assert (EE : forall i, entry_of bs' i = entry_of bs i) by (intros; apply buser_entry; auto).
  assert (EN : forall i, name_of bs' i = name_of bs i) by (intros; apply buser_name; auto).
  assert (EX : forall i, inx (b_ib bs') i = inx (b_ib bs) i) by (intros; cbn; apply inx_upd_wrappee).
  assert (EL : length (b_ib bs') = length (b_ib bs)) by (cbn; apply upd_length).
  constructor; auto.
  - intros i Hi. rewrite EE. apply R3. lia.
  - intros n. specialize (R4 n). eapply Forall2_impl_In; [|exact R4]. intros i y _. rewrite EE. auto.
  - intros n. eapply lseg_ext; [|apply R5]. intros i _. apply EX.
  - intros n i Hi. rewrite EN. auto.
  - intros i Hi. rewrite EX. auto.
  - intros i ib Hi. rewrite EL.
    destruct (map_nth_eq buser _ _ i ib (eq_sym EB) Hi) as (ib' & H' & E'). unfold buser in E'.
    destruct (R10 i ib' H') as (k & H1 & H2). exists k. split; [|auto]. cbn. congruence.
Qed.

Lemma wrel_orig_ext bs o1 o2 ch todo : (forall n, o1 n = o2 n) -> wrel bs o1 ch todo -> wrel bs o2 ch todo.
Proof. intros E [A B C D]. constructor; auto. intros n. rewrite <- E. apply B. Qed.

(** the innermost wrapper of [n] gets its wrappee *)
Lemma wrel_resolve bs tools stack orig ch todo n l b a : brel bs tools stack ch todo -> wrel bs orig ch todo -> ch n = l ++ [b] ->
  wrel (set_ib (upd (b_ib bs) b (set_iwrappee (Ptr a))) bs) (cupd orig n (Some a)) ch todo.
Proof.
  intros R W Ec. set (bs' := set_ib _ bs).
  assert (EB : map buser (b_ib bs') = map buser (b_ib bs)) by (cbn; apply buser_wrappee).
  assert (Hb : In b (ch n)) by (rewrite Ec; apply in_elt).
  assert (Hlt : exists ib, nth_error (b_ib bs) b = Some ib).
  { pose proof (br_name _ _ _ _ _ R _ _ Hb) as H. unfold name_of in H. destruct (nth_error (b_ib bs) b); [eauto|discriminate]. }
  assert (EW : forall j, j <> b -> wee (b_ib bs') j = wee (b_ib bs) j).
  { intros j Hj. cbn. rewrite wee_upd_wrappee. destruct (Nat.eqb_spec b j); [congruence|reflexivity]. }
  destruct W as [W1 W2 W3 W4]. constructor.
  - intros i ib Hi. destruct (map_nth_eq buser _ _ i ib (eq_sym EB) Hi) as (ib' & H' & E'). unfold buser in E'.
    pose proof (W1 i ib' H') as H1. cbn. congruence.
  - intros m. destruct (cstr_dec m n) as [->|Hne].
    + rewrite cupd_eq, Ec. eapply links_set_last; [rewrite <- Ec; apply W2|rewrite <- Ec; apply (br_nodup _ _ _ _ _ R)| |auto|].
      * intros. apply buser_wrp. auto.
      * destruct Hlt as [ib Hib]. cbn. rewrite wee_upd_wrappee, Nat.eqb_refl, Hib. reflexivity.
    + rewrite cupd_neq by auto. eapply links_ext; [| |apply W2].
      * intros i Hi. apply EW. intros ->. pose proof (br_name _ _ _ _ _ R _ _ Hi). pose proof (br_name _ _ _ _ _ R _ _ Hb). congruence.
      * intros. apply buser_wrp. auto.
  - intros i Hi. rewrite EW; [auto|]. intros ->. apply (br_todo _ _ _ _ _ R _ Hi) in Hb. auto.
  - intros i Hi. apply W4. rewrite <- (map_eq_length _ _ _ EB). auto.
Qed.

Section Step.
Context (e : env) (ex : lmap -> cstr -> option Z) (rl : lmap -> list (Z * cstr)).

Lemma prepare_symbol_spec st tools stack ch todo n l b :
  brel (s_b st) tools stack ch todo -> ch n = l ++ [b] -> lbase (s_l st) ->
  (forall m, In m (p_maps (s_p st)) -> lib_ok e ex rl m) ->
  let fe := first_export ex (p_maps (s_p st)) n in
  exists bs' l', prepare_symbol e st b = Ok (set_b bs' (set_l l' st), match fe with Some _ => true | None => false end) /\
    tracks (p_maps (s_p st)) (s_l st) l' /\ brel bs' tools stack ch todo /\
    b_nf bs' = b_nf (s_b st) /\ b_fn bs' = b_fn (s_b st) /\ b_tools bs' = b_tools (s_b st) /\ b_tables bs' = b_tables (s_b st) /\
    b_handles bs' = b_handles (s_b st) /\ b_all bs' = b_all (s_b st) /\
    map buser (b_ib bs') = map buser (b_ib (s_b st)) /\
    (forall orig, wrel (s_b st) orig ch todo -> orig n = None -> wrel bs' (cupd orig n fe) ch todo).
Proof.
  intros R Ec B HL fe. assert (Hb : In b (ch n)) by (rewrite Ec; apply in_elt).
  pose proof (br_name _ _ _ _ _ R _ _ Hb) as Hn. unfold name_of in Hn.
  destruct (nth_error (b_ib (s_b st)) b) as [ib|] eqn:Eib; [|discriminate]. cbn in Hn. injection Hn as Hn.
  unfold prepare_symbol. rewrite (deref_Ok _ _ _ Eib). cbn [bind]. rewrite Hn.
  destruct (prepare_loop_spec e ex rl (p_maps (s_p st)) n (s_l st) B HL) as (l' & El & T). rewrite El. cbn [bind].
  fold fe. destruct fe as [a|] eqn:Efe.
  - cbn [s_b set_l]. destruct (br_handles _ _ _ _ _ R b ib Eib) as (j & Hj & Hlt). rewrite (set_wrappee_Ok _ _ _ _ Hj). cbn [bind].
    eexists _, l'. split; [reflexivity|]. split; [auto|]. split; [apply brel_wrappee; auto|].
    repeat (split; [reflexivity|]). split; [apply buser_wrappee|].
    intros orig W Ho. assert (j = b) by (pose proof (wr_handles _ _ _ _ W b ib Eib); congruence). subst j.
    eapply wrel_resolve; eauto.
  - exists (s_b st), l'. split; [destruct st; reflexivity|]. split; [auto|]. split; [auto|]. repeat (split; [reflexivity|]).
    intros orig W Ho. eapply wrel_orig_ext; [|exact W]. intros m. unfold cupd. destruct (cstr_eqb m n) eqn:E; [|reflexivity].
    apply cstr_eqb_ok in E. subst m. auto.
Qed.

(** *** the state of the code and of the abstract machine.  [F]: bindings are fresh *)
Record srel (F : Prop) (st : state) (a : astate) (ch : cstr -> list nat) (todo : list nat) : Prop := {
  sr_init : s_init st = true;
  sr_ainit : a_init a = true;
  sr_main : s_main st = a_main a;
  sr_maps : p_maps (s_p st) = a_maps a;
  sr_lib : forall m, In m (a_maps a) -> lib_ok e ex rl m;
  sr_b : brel (s_b st) (a_tools a) (a_stack a) ch todo;
  sr_nf : exists g, smap (b_nf (s_b st)) g /\ (forall n b, g n = Some b -> In b (ch n)) /\
            (forall n, g n = None <-> a_stack a n = [] \/ a_orig a n <> None);
  sr_orig : forall n, a_stack a n = [] -> a_orig a n = None;
  sr_l : lbase (s_l st);
  sr_w : F -> wrel (s_b st) (a_orig a) ch todo;
  sr_int : F -> a_main a = false -> forall i ib, nth_error (b_ib (s_b st)) i = Some ib ->
    ~ In (ub_handle (ib_user ib)) [e_h_libc e; e_h_main e] /\ ~ In (ub_wrapper (ib_user ib)) [e_w_libc e; e_w_main e] }.

Lemma ch_nil F st a ch todo n : srel F st a ch todo -> a_stack a n = [] <-> ch n = [].
Proof.
  intros S. pose proof (br_stack _ _ _ _ _ (sr_b _ _ _ _ _ S) n) as H. split; intros E; rewrite E in H; inversion H; auto.
Qed.

Lemma entry_binding bs b x n : entry_of bs b = Some x -> name_of bs b = Some n ->
  exists ib, nth_error (b_ib bs) b = Some ib /\ ib_user ib = mkUB n (en_wrapper x) (en_handle x).
Proof.
  intros H1 H2. destruct (entry_user _ _ _ H1) as (ib & E & A & B). exists ib. split; [auto|].
  unfold name_of in H2. rewrite E in H2. cbn in H2. injection H2 as H2. destruct (ib_user ib); cbn in *; congruence.
Qed.

(** what happens to the table of new bindings *)
Definition new_step (num : Z) (old new : option (htable cstr nat)) (n : cstr) (b : nat) (nb : bool) : Prop :=
  if nb then exists t0 t1, match old with Some t => t0 = t | None => create_hashtable (e_ps e) (num * 2) strhash libc_strcmp = Ok t0 end /\
                addto_hashtable t0 n b = Ok t1 /\ new = Some t1
  else new = old.
Definition new_inv (o : option (htable cstr nat)) : Prop :=
  match o with Some t => exists l c, ht_inv strhash libc_strcmp t l c | None => True end.

Lemma wrap_one_spec rec F st a ch todo b n x num pr st1 a1 ch1 :
  48 <= e_ps e -> 0 < num ->
  srel F st a ch (b :: todo) -> name_of (s_b st) b = Some n -> entry_of (s_b st) b = Some x ->
  wrap_main e rec st n = Ok st1 -> srel F st1 a1 ch1 (b :: todo) ->
  name_of (s_b st1) b = Some n -> entry_of (s_b st1) b = Some x ->
  prio_of (a_tools a1) (en_tool x) = prio_of (a_tools a) (en_tool x) ->
  (F -> ~ In (en_wrapper x) (map en_wrapper (a_stack a1 n))) ->
  new_inv (pr_new pr) ->
  exists st' ch' pr' nb,
    let u := mkUB n (en_wrapper x) (en_handle x) in
    let r := abind ins_c ex a1 (en_tool x) u in
    wrap_one e rec num b (st, pr) = Ok (st', pr') /\ srel F st' (fst r) ch' todo /\
    pr_not_found pr' = pr_not_found pr + (if snd r then 1 else 0) /\
    s_p st' = s_p st1 /\ tracks (p_maps (s_p st1)) (s_l st1) (s_l st') /\
    map buser (b_ib (s_b st')) = map buser (b_ib (s_b st1)) /\ b_tools (s_b st') = b_tools (s_b st1) /\ b_tables (s_b st') = b_tables (s_b st1) /\
    b_handles (s_b st') = b_handles (s_b st1) /\
    (forall m, m <> n -> ch' m = ch1 m) /\
    new_step num (pr_new pr) (pr_new pr') n b nb /\
    (nb = true -> hd_error (ch' n) = Some b /\
       match a_stack a1 n with [] => True | h :: _ => prio_of (a_tools a1) (en_tool h) < prio_of (a_tools a1) (en_tool x) end) /\
    (nb = false -> hd_error (ch' n) = hd_error (ch1 n)).
Proof.
  intros Hps Hnum S Hn He Hmain S1 Hn1 He1 Hprio Hfr Hnew. cbv zeta.
  destruct (entry_binding _ _ _ _ He Hn) as (ib & Eib & Eu).
  destruct (entry_binding _ _ _ _ He1 Hn1) as (ib1 & Eib1 & Eu1).
  pose proof (sr_b _ _ _ _ _ S1) as R1.
  unfold wrap_one, rewrite_wrapper_orders. rewrite (deref_Ok _ _ _ Eib). cbn [bind].
  rewrite (entry_priority _ _ _ _ (br_tools _ _ _ _ _ (sr_b _ _ _ _ _ S)) (br_prios _ _ _ _ _ (sr_b _ _ _ _ _ S)) He). cbn [bind].
  rewrite Eu. cbn [ub_name ub_wrapper]. rewrite Hmain. cbn [bind]. rewrite <- Hprio.
  destruct (place_binding_spec _ _ _ _ _ b n x R1 Hn1 He1)
    as (bs2 & ch2 & r & EP & E1 & E2 & E3 & E4 & E5 & E6 & R2 & Hch & Hin & Hne & Hnl & Hnb1 & Hnb2 & Hemp & HW).
  rewrite EP. cbn [bind].
  destruct (map_nth_eq buser _ _ _ _ E6 Eib1) as (ib2 & Eib2 & Eu2). unfold buser in Eu2.
  assert (Eu2' : ib_user ib2 = mkUB n (en_wrapper x) (en_handle x)) by congruence. clear Eu2.
  cbn [s_b set_b]. rewrite (deref_Ok _ _ _ Eib2). cbn [bind]. rewrite Eu2'. cbn [ub_name].
  (* the table of new bindings *)
  assert (HNEW : forall st3 nf, exists pr' , pr_not_found pr' = nf /\
     (if need_binding r
      then do t <- match pr_new pr with Some t => Ok t | None => create_hashtable (e_ps e) (num * 2) strhash libc_strcmp end;
           do t <- addto_hashtable t n b; Ok (st3, mkPr nf (Some t))
      else Ok (st3, mkPr nf (pr_new pr))) = Ok (st3 : state, pr') /\ new_step num (pr_new pr) (pr_new pr') n b (need_binding r)).
  { intros st3 nf. destruct (need_binding r).
    - assert (HC : exists t0, match pr_new pr with Some t => Ok t | None => create_hashtable (e_ps e) (num * 2) strhash libc_strcmp end = Ok t0 /\
         (exists l c, ht_inv strhash libc_strcmp t0 l c) /\
         match pr_new pr with Some t => t0 = t | None => create_hashtable (e_ps e) (num * 2) strhash libc_strcmp = Ok t0 end).
      { destruct (pr_new pr) as [t|]; [exists t; auto|].
        destruct (create_spec (D:=nat) (e_ps e) (num * 2) strhash libc_strcmp Hps ltac:(lia)) as (t & Ht & I & _). eauto 6. }
      destruct HC as (t0 & Et0 & (l0 & c0 & I0) & Ht0). rewrite Et0. cbn [bind].
      destruct (addto_spec t0 l0 c0 n b I0) as (t1 & l1 & c1 & Et1 & _). rewrite Et1. cbn [bind].
      eexists. split; [|split; [reflexivity|]]; [reflexivity|]. cbn. eauto.
    - eexists. split; [|split; [reflexivity|]]; reflexivity. }
  destruct (sr_nf _ _ _ _ _ S1) as (g & Hg1 & Hg2 & Hg3).
  assert (HU : forall bs', map buser (b_ib bs') = map buser (b_ib (s_b st1)) -> F -> a_main a1 = false -> forall i ib, nth_error (b_ib bs') i = Some ib ->
    ~ In (ub_handle (ib_user ib)) [e_h_libc e; e_h_main e] /\ ~ In (ub_wrapper (ib_user ib)) [e_w_libc e; e_w_main e]).
  { intros bs' Eb f Hm i ibx Hi. destruct (map_nth_eq buser _ _ i ibx (eq_sym Eb) Hi) as (ib' & H' & E'). unfold buser in E'.
    pose proof (sr_int _ _ _ _ _ S1 f Hm i ib' H'). replace (ib_user ibx) with (ib_user ib') by congruence. auto. }
  destruct (a_stack a1 n) as [|h0 r0] eqn:Es; rewrite Hnl.
  - (* first binding of this name: look the symbol up *)
    destruct (Hemp eq_refl) as (Hch2 & Hb2 & Eibs).
    assert (HL : forall m, In m (p_maps (s_p (set_b bs2 st1))) -> lib_ok e ex rl m).
    { cbn [s_p set_b]. rewrite (sr_maps _ _ _ _ _ S1). apply (sr_lib _ _ _ _ _ S1). }
    destruct (prepare_symbol_spec (set_b bs2 st1) _ _ _ _ n [] b R2 Hch2 (sr_l _ _ _ _ _ S1) HL)
      as (bs3 & l3 & E & T & R3 & N1 & N2 & N3 & N4 & N5 & N6 & N7 & W3).
    rewrite E. cbn [bind]. cbn [s_p set_b] in E, T, W3 |- *. rewrite (sr_maps _ _ _ _ _ S1) in *.
    set (fe := first_export ex (a_maps a1) n) in *. cbn [set_b s_b] in N1, N2, N3, N4, N5, N6, N7.
    assert (WW : F -> wrel bs3 (cupd (a_orig a1) n fe) ch2 todo).
    { intros f. apply W3; [|apply (sr_orig _ _ _ _ _ S1); auto]. cbn [s_b set_b]. apply HW; [apply (sr_w _ _ _ _ _ S1 f)|auto|].
      intros _. apply (sr_orig _ _ _ _ _ S1); auto. }
    assert (Hgn : g n = None) by (apply Hg3; auto).
    assert (Hg2' : forall m b', g m = Some b' -> In b' (ch2 m)).
    { intros m b' Hm. pose proof (Hg2 _ _ Hm) as HI. destruct (cstr_dec m n) as [->|D]; [congruence|]. rewrite Hch; auto. }
    assert (Horig : forall m, cupd (a_stack a1) n (ins_c (a_tools a1) x []) m = [] -> cupd (a_orig a1) n fe m = None).
    { intros m. destruct (cstr_dec m n) as [->|D]; [rewrite !cupd_eq; discriminate|rewrite !cupd_neq by auto; apply (sr_orig _ _ _ _ _ S1)]. }
    unfold abind. cbn [ub_name ub_wrapper ub_handle]. rewrite Es. fold fe. cbn [fst snd].
    replace (mkE (en_tool x) (en_wrapper x) (en_handle x)) with x by (destruct x; reflexivity).
    destruct fe as [adr|] eqn:Efe.
    + (* found *)
      destruct (HNEW (set_b bs3 (set_l l3 (set_b bs2 st1))) (pr_not_found pr)) as (pr' & HN1 & HN2 & HN3).
      exists (set_b bs3 (set_l l3 (set_b bs2 st1))), ch2, pr', (need_binding r).
      split; [destruct pr as [p0 p1]; exact HN2|]. split; [|spl; auto]; try (cbn; congruence).
      * constructor; cbn; try apply S1; auto.
        -- exists g. split; [rewrite N1, E3; auto|]. split; [auto|]. intros m. rewrite Hg3. destruct (cstr_dec m n) as [->|D].
           ++ rewrite !cupd_eq, Es. split; [intros _; right; discriminate|auto].
           ++ rewrite !cupd_neq by auto. tauto.
        -- apply (tracks_base _ _ _ T). apply S1.
        -- apply HU. cbn. congruence.
      * cbn [pr_not_found] in HN1. lia.
    + (* missing *)
      destruct (smap_add _ g n b Hg1 Hgn) as (nt & Hnt & Hgm). cbn [s_b set_b]. rewrite N1, E3, Hnt. cbn [bind pr_new pr_not_found].
      destruct (HNEW (set_b (set_nf nt bs3) (set_b bs3 (set_l l3 (set_b bs2 st1)))) (pr_not_found pr + 1)) as (pr' & HN1 & HN2 & HN3).
      eexists _, ch2, pr', (need_binding r). split; [exact HN2|]. split; [|spl; auto]; try (cbn; congruence).
      * constructor; cbn; try apply S1; auto.
        -- destruct R3. constructor; auto.
        -- exists (cupd g n (Some b)). split; [auto|]. split.
           ++ intros m b' Hm. destruct (cstr_dec m n) as [->|D]; [rewrite cupd_eq in Hm; injection Hm as <-; rewrite Hch2; left; auto|].
              rewrite cupd_neq in Hm by auto. auto.
           ++ intros m. destruct (cstr_dec m n) as [->|D]; [|rewrite !cupd_neq by auto; apply Hg3].
              rewrite !cupd_eq. cbn. split; [discriminate|]. intros [H|H]; [discriminate|congruence].
        -- apply (tracks_base _ _ _ T). apply S1.
        -- intros f. destruct (WW f). constructor; auto.
        -- apply HU. cbn. congruence.
  - (* further binding *)
    cbn [bind]. unfold abind. cbn [ub_name ub_wrapper ub_handle]. rewrite Es. cbn [fst snd].
    replace (mkE (en_tool x) (en_wrapper x) (en_handle x)) with x by (destruct x; reflexivity).
    destruct (HNEW (set_b bs2 st1) (pr_not_found pr)) as (pr' & HN1 & HN2 & HN3).
    exists (set_b bs2 st1), ch2, pr', (need_binding r).
    split; [destruct pr as [p0 p1]; exact HN2|]. split; [|spl; auto]; try (cbn; congruence).
    + constructor; cbn; try apply S1; auto.
      * exists g. split; [rewrite E3; auto|]. split.
        -- intros m b' Hm. pose proof (Hg2 _ _ Hm) as HI. destruct (cstr_dec m n) as [->|D]; [auto|]. rewrite Hch; auto.
        -- intros m. rewrite Hg3. destruct (cstr_dec m n) as [->|D]; [|rewrite cupd_neq by auto; tauto].
           rewrite cupd_eq, Es. split; intros [H|H]; auto; [discriminate|]. exfalso. cbn in H.
           destruct (prio_of (a_tools a1) (en_tool h0) <? prio_of (a_tools a1) (en_tool x)); [discriminate|].
           destruct r0; cbn in H; [discriminate|]. destruct (_ <? _) in H; [discriminate|]. destruct (_ =? _) in H; discriminate.
      * intros m. destruct (cstr_dec m n) as [->|D]; [|rewrite cupd_neq by auto; apply (sr_orig _ _ _ _ _ S1)].
        rewrite cupd_eq. intros H. exfalso. cbn in H.
        destruct (prio_of (a_tools a1) (en_tool h0) <? prio_of (a_tools a1) (en_tool x)); [discriminate|].
        destruct r0; cbn in H; [discriminate|]. destruct (_ <? _) in H; [discriminate|]. destruct (_ =? _) in H; discriminate.
      * intros f. apply HW; [apply (sr_w _ _ _ _ _ S1 f)|auto|discriminate].
      * apply HU. cbn. congruence.
    + cbn [pr_not_found] in HN1. lia.
    + cbn. constructor.
Qed.
End Step.
