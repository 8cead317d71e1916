(** Whole histories: from the refinement to statements about observations. *)
From Verif Require Import Base ListFacts SpecHash HashTrace HashModel HashProofs ElfModel SpecElf ToolModel CoreModel SpecCore SpecRun
  ToolProofs CoreMaps CoreRel CoreLib CoreStep CoreWrap CoreLoop CoreMain CoreEnv CoreSpec CoreFacts.
From Coq Require Import Permutation Sorted.

Notation rel1 e := (rel e (exports e) relocs).

Lemma process_libs e maps ops : process_ok e maps ops -> forall m, In m maps -> lib_ok e (exports e) relocs m.
Proof. intros [E M O] m H. apply lib_wf_ok; [apply E|auto]. Qed.
Lemma process_ops e maps ops : process_ok e maps ops -> forall o, In o ops -> lib_op e (exports e) relocs o.
Proof. intros [E M O] o H m Hm. apply lib_wf_ok; [apply E|eauto]. Qed.

Lemma NoDup_app_remove_l {A} (l1 l2 : list A) : NoDup (l1 ++ l2) -> NoDup l2.
Proof. induction l1 as [|x r IH]; cbn; [auto|]. intros H. inversion H; auto. Qed.
Lemma NoDup_app_remove_r {A} (l1 l2 : list A) : NoDup (l1 ++ l2) -> NoDup l1.
Proof. induction l1 as [|x r IH]; cbn; intros H; [constructor|]. inversion H; subst. constructor; [|auto]. intros Hx. apply H2. apply in_or_app. auto. Qed.
Lemma user_binds_app l1 l2 : user_binds (l1 ++ l2) = user_binds l1 ++ user_binds l2.
Proof. unfold user_binds. apply flat_map_app. Qed.

Lemma process_app e maps l1 l2 : process_ok e maps (l1 ++ l2) -> process_ok e maps l1.
Proof. intros [A B C]. constructor; auto. intros. eapply C; [apply in_or_app; left; eauto|auto]. Qed.
Lemma fresh_app e l1 l2 : fresh e (l1 ++ l2) -> fresh e l1.
Proof.
  intros [A B C]. rewrite user_binds_app in *. rewrite map_app in A, B. constructor.
  - apply NoDup_app_remove_r in A. auto.
  - apply NoDup_app_remove_r in B. auto.
  - intros u Hu. apply C. apply in_or_app. auto.
Qed.

(** *** elements of the stacks were installed *)
Definition ins_in (ins : list (cstr * Z) -> entry -> list entry -> list entry) : Prop := forall m x s y, In y (ins m x s) -> y = x \/ In y s.
Lemma place_in : ins_in place.
Proof. intros m x s y H. apply (Permutation_in _ (place_perm m x s)) in H. apply in_app_or in H. destruct H as [H|[H|[]]]; auto. Qed.
Lemma ins_c_in : ins_in ins_c.
Proof. intros m x s y H. apply ins_c_In in H. auto. Qed.

Lemma stack_from e ex ins maps ops n x : ins_in ins -> In x (a_stack (fst (arun ins ex e (a0 maps) ops)) n) -> In x (installed e ops n).
Proof.
  intros Hin.
  pose (P := fun (a : astate) (I : list (cstr * entry)) => forall n x, In x (a_stack a n) -> In x (sel n I)).
  assert (H : P (fst (arun ins ex e (a0 maps) ops)) ([] ++ installs e (a_init (a0 maps)) (a_main (a0 maps)) ops)); [|apply H].
  apply hist_run; unfold P in *; cbn; auto.
  - intros a I t u H m y Hy. rewrite abind_stack_gen in Hy. unfold cupd in Hy. rewrite sel_app, sel_bound. apply in_or_app.
    destruct (cstr_dec m (ub_name u)) as [->|Hn].
    + rewrite cstr_eqb_refl in *. apply Hin in Hy. destruct Hy as [->|Hy]; [right; left; auto|left; auto].
    + rewrite (cstr_eqb_neq m) in Hy by auto. left. auto.
  - intros l1 o l2 _ I H. destruct o; auto.
Qed.

(** *** fresh histories *)
Lemma call_installs_user e t n x ubs : forall m, In (n, x) (call_installs e m t ubs) ->
  (exists u, In u ubs /\ n = ub_name u /\ en_wrapper x = ub_wrapper u /\ en_handle x = ub_handle u) \/
  (In (en_wrapper x) (internal_wrappers e) /\ In (en_handle x) (internal_handles e)).
Proof.
  induction ubs as [|u r IH]; intros m H; cbn [call_installs] in H; [destruct H|]. apply in_app_or in H. destruct H as [H|[H|H]].
  - right. destruct (cstr_eqb (ub_name u) n_main && negb m); [|destruct H]. cbn in H. unfold bound in H. cbn in H.
    destruct H as [H|[H|[]]]; injection H as _ <-; cbn; auto 10.
  - left. exists u. unfold bound in H. injection H as <- <-. split; [left; auto|auto].
  - apply IH in H. destruct H as [(v & A & B)|H]; [left; exists v; split; [right; auto|auto]|auto].
Qed.
Lemma installs_user e n x ops : forall i m, In (n, x) (installs e i m ops) ->
  (exists u, In u (user_binds ops) /\ n = ub_name u /\ en_wrapper x = ub_wrapper u /\ en_handle x = ub_handle u) \/
  (In (en_wrapper x) (internal_wrappers e) /\ In (en_handle x) (internal_handles e)).
Proof.
  induction ops as [|o r IH]; intros i m H; [destruct H|].
  assert (Own : forall i : bool, In (n, x) (if i then [] else map (bound n_gotcha) (dl_binds e)) -> In (en_wrapper x) (internal_wrappers e) /\ In (en_handle x) (internal_handles e)).
  { intros [|] Hx; [destruct Hx|]. cbn in Hx. unfold bound in Hx. cbn in Hx. destruct Hx as [Hx|[Hx|[]]]; injection Hx as _ <-; cbn; auto 10. }
  assert (Sub : forall i m, In (n, x) (installs e i m r) -> (exists u, In u (user_binds (o :: r)) /\ n = ub_name u /\ en_wrapper x = ub_wrapper u /\ en_handle x = ub_handle u) \/
     (In (en_wrapper x) (internal_wrappers e) /\ In (en_handle x) (internal_handles e))).
  { intros i' m' Hx. apply IH in Hx. destruct Hx as [(v & A & B)|Hx]; [left; exists v; split; [|auto]|auto]. unfold user_binds. cbn. apply in_or_app. auto. }
  destruct o as [ubs tool|t v|t|f|libs mem| |keep mem]; cbn [installs] in H; try (apply Sub in H; exact H).
  - apply in_app_or in H. destruct H as [H|H]; [apply Own in H; auto|]. apply in_app_or in H. destruct H as [H|H]; [|eauto].
    apply call_installs_user in H. destruct H as [(u & A & B)|H]; [left; exists u; split; [|auto]|auto]. unfold user_binds. cbn. apply in_or_app. auto.
  - apply in_app_or in H. destruct H as [H|H]; [apply Own in H; auto|eauto].
  - apply in_app_or in H. destruct H as [H|H]; [apply Own in H; auto|eauto].
Qed.

Lemma NoDup_map_inj {A B} (f : A -> B) l1 l2 x y : NoDup (map f (l1 ++ l2)) -> In x l1 -> In y l2 -> f x <> f y.
Proof.
  intros H Hx Hy E. rewrite map_app in H. apply in_split in Hx. destruct Hx as (p & q & ->). rewrite map_app in H. cbn in H. rewrite <- app_assoc in H. cbn in H.
  apply NoDup_remove_2 in H. apply H. apply in_or_app. right. apply in_or_app. right. rewrite E. apply in_map. auto.
Qed.

Lemma fresh_ops_of e ex maps ops : forall pre, fresh e (pre ++ ops) -> fresh_ops place ex e (fst (arun place ex e (a0 maps) pre)) ops.
Proof.
  induction ops as [|o r IH]; intros pre F; cbn [fresh_ops]; [auto|]. split.
  - destruct o as [ubs tool| | | | | |]; cbn [fresh_op]; auto.
    destruct F as [A B C]. rewrite user_binds_app in A, B, C. unfold user_binds in A, B, C. cbn in A, B, C. fold (user_binds pre) (user_binds r) in *.
    assert (St : forall n x, In x (a_stack (fst (arun place ex e (a0 maps) pre)) n) ->
       (exists u, In u (user_binds pre) /\ n = ub_name u /\ en_wrapper x = ub_wrapper u /\ en_handle x = ub_handle u) \/
       (In (en_wrapper x) (internal_wrappers e) /\ In (en_handle x) (internal_handles e))).
    { intros n x Hx. apply (stack_from e ex place maps pre n x place_in) in Hx. unfold installed in Hx. apply in_sel in Hx. eapply installs_user; eauto. }
    constructor.
    + rewrite !map_app in A. apply NoDup_app_remove_l in A. apply NoDup_app_remove_r in A. auto.
    + rewrite !map_app in B. apply NoDup_app_remove_l in B. apply NoDup_app_remove_r in B. auto.
    + intros u n x Hu Hx E. apply St in Hx. destruct Hx as [(v & V1 & V2 & V3 & V4)|[_ Hx]].
      * eapply (NoDup_map_inj ub_handle); [exact A|exact V1|apply in_or_app; left; exact Hu|congruence].
      * rewrite E in Hx. destruct (C u) as [C1 _]; [apply in_or_app; right; apply in_or_app; auto|]. auto.
    + intros u x Hu Hx E. apply St in Hx. destruct Hx as [(v & V1 & V2 & V3 & V4)|[Hx _]].
      * eapply (NoDup_map_inj (fun u => (ub_name u, ub_wrapper u))); [exact B|exact V1|apply in_or_app; left; exact Hu|cbn; congruence].
      * rewrite E in Hx. destruct (C u) as [_ C1]; [apply in_or_app; right; apply in_or_app; auto|]. auto.
    + intros u Hu. apply C. apply in_or_app. right. apply in_or_app. auto.
  - specialize (IH (pre ++ [o])). rewrite <- app_assoc in IH. specialize (IH F). rewrite arun_app in IH. cbn [fst SpecCore.arun] in IH.
    destruct (astep place ex e (fst (arun place ex e (a0 maps) pre)) o). exact IH.
Qed.

(** *** running histories *)
Lemma run_any e maps mem ops : process_ok e maps ops ->
  exists st, run e (init_state maps mem) ops = Ok (st, snd (arun ins_c (exports e) e (a0 maps) ops)) /\
    rel1 e False st (fst (arun ins_c (exports e) e (a0 maps) ops)).
Proof.
  intros P. destruct (run_spec e (exports e) relocs (po_env _ _ _ P) False ops (init_state maps mem) (a0 maps)) as (st & E & R).
  - apply init_rel. eapply process_libs; eauto.
  - intros [].
  - eapply process_ops; eauto.
  - eauto.
Qed.

Lemma history_agree e maps ops : env_ok e -> fresh e ops -> history e maps ops = fst (arun ins_c (exports e) e (a0 maps) ops).
Proof.
  intros E F. unfold history. destruct (arun_agree e E (exports e) ops (a0 maps)) as (A & _); [apply a0_inv|apply (fresh_ops_of e (exports e) maps ops [] F)|]. rewrite A. auto.
Qed.

Lemma run_hist e maps mem ops : process_ok e maps ops -> fresh e ops ->
  exists st, run e (init_state maps mem) ops = Ok (st, snd (arun place (exports e) e (a0 maps) ops)) /\ rel1 e True st (history e maps ops).
Proof.
  intros P F. destruct (arun_agree e (po_env _ _ _ P) (exports e) ops (a0 maps)) as (A & B & _); [apply a0_inv|apply (fresh_ops_of e (exports e) maps ops [] F)|].
  destruct (run_spec e (exports e) relocs (po_env _ _ _ P) True ops (init_state maps mem) (a0 maps)) as (st & E & R).
  - apply init_rel. eapply process_libs; eauto.
  - intros _. exact B.
  - eapply process_ops; eauto.
  - exists st. unfold history. rewrite A. auto.
Qed.

(** *** observations *)
Lemma rel_outermost e F st a n : rel1 e F st a -> outermost st n = Ok (option_map en_wrapper (hd_error (a_stack a n))).
Proof.
  unfold outermost. intros [P|[ch S]].
  - rewrite (pr_i _ _ _ _ _ P), (pr_as _ _ _ _ _ P). reflexivity.
  - rewrite (sr_init _ _ _ _ _ _ _ _ S). pose proof (sr_b _ _ _ _ _ _ _ _ S) as B.
    rewrite (smap_lookup _ _ n (br_fn _ _ _ _ _ B)). cbn [bind].
    pose proof (br_stack _ _ _ _ _ B n) as FS. destruct FS as [|i x l s Hx FS]; [reflexivity|]. cbn [hd_error option_map].
    unfold entry_of in Hx. destruct (nth_error (b_ib (s_b st)) i) as [ib|] eqn:E; [|discriminate]. rewrite (deref_Ok _ _ _ E). cbn [bind].
    destruct (nth_error (b_tables (s_b st)) (ib_table ib)) as [bt|]; [|discriminate]. destruct (nth_error (ts_heap (b_tools (s_b st))) (bt_tool bt)); [|discriminate].
    injection Hx as <-. reflexivity.
Qed.

Lemma entry_ib bs i x : entry_of bs i = Some x -> exists ib, nth_error (b_ib bs) i = Some ib /\ ub_wrapper (ib_user ib) = en_wrapper x /\ ub_handle (ib_user ib) = en_handle x.
Proof.
  unfold entry_of. destruct (nth_error (b_ib bs) i) as [ib|]; [|discriminate]. destruct (nth_error (b_tables bs) (ib_table ib)) as [bt|]; [|discriminate].
  destruct (nth_error (ts_heap (b_tools bs)) (bt_tool bt)); [|discriminate]. intros H. injection H as <-. eauto.
Qed.

Lemma links_wired st o : (forall i ib, nth_error (b_ib (s_b st)) i = Some ib -> b_handles (s_b st) (ub_handle (ib_user ib)) = Some i) ->
  forall l s, Forall2 (fun i x => entry_of (s_b st) i = Some x) l s -> links (b_ib (s_b st)) l o -> wired st s o.
Proof.
  intros HH. induction 1 as [|i x l s Hx FS IH]; intros L; cbn [wired]; [auto|]. destruct L as [L1 L2]. split; [|auto].
  destruct (entry_ib _ _ _ Hx) as (ib & E & W & H). unfold gotcha_get_wrappee. rewrite <- H, (HH _ _ E), (deref_Ok _ _ _ E). cbn [bind].
  unfold wee in L1. rewrite E in L1. cbn in L1. injection L1 as L1. rewrite L1. destruct FS as [|j y l s Hy FS]; [destruct o; reflexivity|].
  destruct (entry_ib _ _ _ Hy) as (jb & E2 & W2 & _). unfold wrp. rewrite E2, W2. reflexivity.
Qed.

Lemma rel_wired e st a n : rel1 e True st a -> wired st (a_stack a n) (a_orig a n).
Proof.
  intros [P|[ch S]].
  - rewrite (pr_as _ _ _ _ _ P). exact I.
  - pose proof (sr_b _ _ _ _ _ _ _ _ S) as B. pose proof (sr_w _ _ _ _ _ _ _ _ S I) as W.
    eapply links_wired; [apply W|apply (br_stack _ _ _ _ _ B)|apply W].
Qed.
