(** gotcha_wrap refines the abstract machine. *)
From Verif Require Import Base ListFacts HashModel HashProofs SpecHash HashTrace ElfModel ToolModel CoreModel SpecCore SpecRun ToolProofs CoreMaps CoreRel CoreLib CoreStep.
From Coq Require Import Permutation Sorted.

(** *** the abstract machine: facts *)
Definition sub_stack (a a' : astate) : Prop := forall n x, In x (a_stack a n) -> In x (a_stack a' n).

Lemma prio_use m t n : prio_of (use_tool m t) n = prio_of m n.
Proof.
  unfold use_tool. destruct (existsb _ m); [reflexivity|]. unfold prio_of. induction m as [|[k v] r IH].
  - cbn. unfold aget. cbn. destruct (cstr_eqb t n); reflexivity.
  - unfold aget in *. cbn [app find fst]. destruct (cstr_eqb k n); [reflexivity|exact IH].
Qed.

Lemma ins_walk_In m x h s y : In y (ins_walk m x h s) -> y = x \/ In y (h :: s).
Proof.
  revert h. induction s as [|z r IH]; intros h; cbn.
  - intros [H|[H|[]]]; auto.
  - destruct (_ <? _).
    + cbn. intros [H|[H|H]]; auto.
    + destruct (_ =? _); [cbn; auto|]. cbn [In]. intros [H|H]; [auto|]. apply IH in H. cbn in H. tauto.
Qed.
Lemma ins_walk_incl m x h s y : In y (h :: s) -> In y (ins_walk m x h s).
Proof.
  revert h. induction s as [|z r IH]; intros h; cbn; [tauto|].
  destruct (_ <? _); [cbn; tauto|]. destruct (_ =? _); [cbn; tauto|]. intros [H|H]; [left; auto|right]. apply IH. exact H.
Qed.
Lemma ins_c_In m x s y : In y (ins_c m x s) -> y = x \/ In y s.
Proof. destruct s as [|h r]; cbn; [intros [H|[]]; auto|]. destruct (_ <? _); [cbn; intros [H|H]; auto|apply ins_walk_In]. Qed.
Lemma ins_c_incl m x s y : In y s -> In y (ins_c m x s).
Proof. destruct s as [|h r]; cbn; [tauto|]. destruct (_ <? _); [cbn; tauto|apply ins_walk_incl]. Qed.

Section Abs.
Context (ex : lmap -> cstr -> option Z) (e : env).
Notation abind := (abind ins_c ex).
Notation abinds := (abinds ins_c ex).
Notation amain := (amain ins_c ex e).
Notation abinds_user := (abinds_user ins_c ex e).

Lemma abind_main a t u : a_main (fst (abind a t u)) = a_main a.
Proof. unfold SpecCore.abind. destruct (a_stack a (ub_name u)); reflexivity. Qed.
Lemma abind_init a t u : a_init (fst (abind a t u)) = a_init a.
Proof. unfold SpecCore.abind. destruct (a_stack a (ub_name u)); reflexivity. Qed.
Lemma abind_tools a t u : a_tools (fst (abind a t u)) = a_tools a.
Proof. unfold SpecCore.abind. destruct (a_stack a (ub_name u)); reflexivity. Qed.
Lemma abind_maps a t u : a_maps (fst (abind a t u)) = a_maps a.
Proof. unfold SpecCore.abind. destruct (a_stack a (ub_name u)); reflexivity. Qed.
Lemma abind_stack a t u : a_stack (fst (abind a t u)) = cupd (a_stack a) (ub_name u) (ins_c (a_tools a) (mkE t (ub_wrapper u) (ub_handle u)) (a_stack a (ub_name u))).
Proof. unfold SpecCore.abind. destruct (a_stack a (ub_name u)); reflexivity. Qed.

Lemma abind_sub a t u : sub_stack a (fst (abind a t u)).
Proof.
  intros n x H. rewrite abind_stack. destruct (cstr_dec n (ub_name u)) as [->|D].
  - rewrite cupd_eq. apply ins_c_incl. auto.
  - rewrite cupd_neq; auto.
Qed.
Lemma abind_new a t u n x : In x (a_stack (fst (abind a t u)) n) -> In x (a_stack a n) \/ (n = ub_name u /\ x = mkE t (ub_wrapper u) (ub_handle u)).
Proof.
  rewrite abind_stack. destruct (cstr_dec n (ub_name u)) as [->|D].
  - rewrite cupd_eq. intros H. apply ins_c_In in H. tauto.
  - rewrite cupd_neq by auto. auto.
Qed.
Lemma abinds_sub t ubs : forall a, sub_stack a (fst (abinds a t ubs)).
Proof.
  induction ubs as [|u r IH]; intros a n x H; cbn; [auto|].
  destruct (abind a t u) as [a1 f1] eqn:E1. destruct (abinds a1 t r) as [a2 f2] eqn:E2. cbn.
  pose proof (IH a1) as H1. rewrite E2 in H1. apply H1. pose proof (abind_sub a t u) as H2. rewrite E1 in H2. apply H2. auto.
Qed.
Lemma abinds_new t ubs : forall a n x, In x (a_stack (fst (abinds a t ubs)) n) ->
  In x (a_stack a n) \/ exists u, In u ubs /\ n = ub_name u /\ x = mkE t (ub_wrapper u) (ub_handle u).
Proof.
  induction ubs as [|u r IH]; intros a n x; cbn; [auto|].
  destruct (abind a t u) as [a1 f1] eqn:E1. destruct (abinds a1 t r) as [a2 f2] eqn:E2. cbn.
  pose proof (IH a1 n x) as H1. rewrite E2 in H1. intros H. apply H1 in H. destruct H as [H|(u' & A & B)]; [|eauto 6].
  pose proof (abind_new a t u n x) as H2. rewrite E1 in H2. apply H2 in H. destruct H as [H|[A B]]; [auto|eauto 6].
Qed.
Lemma abinds_frame t ubs : forall a, a_main (fst (abinds a t ubs)) = a_main a /\ a_init (fst (abinds a t ubs)) = a_init a /\
  a_tools (fst (abinds a t ubs)) = a_tools a /\ a_maps (fst (abinds a t ubs)) = a_maps a.
Proof.
  induction ubs as [|u r IH]; intros a; cbn; [auto|].
  destruct (abind a t u) as [a1 f1] eqn:E1. destruct (abinds a1 t r) as [a2 f2] eqn:E2. cbn.
  pose proof (IH a1) as H1. rewrite E2 in H1. cbn in H1.
  pose proof (abind_main a t u). pose proof (abind_init a t u). pose proof (abind_tools a t u). pose proof (abind_maps a t u).
  rewrite E1 in *. cbn in *. intuition congruence.
Qed.

Lemma amain_true a n : a_main a = true -> amain a n = a.
Proof. intros H. unfold SpecCore.amain. rewrite H, andb_false_r. reflexivity. Qed.
Lemma amain_other a n : n <> n_main -> amain a n = a.
Proof. intros H. unfold SpecCore.amain. rewrite (cstr_eqb_neq _ _ H). reflexivity. Qed.
Lemma amain_prio a n t : prio_of (a_tools (amain a n)) t = prio_of (a_tools a) t.
Proof.
  unfold SpecCore.amain. destruct (_ && _); [|reflexivity].
  destruct (abinds_frame n_gotcha (main_binds e) (ause (fst (abinds (ause (mkA (a_init a) true (a_tools a) (a_stack a) (a_orig a) (a_maps a)) n_gotcha) n_gotcha (libc_binds e))) n_gotcha)) as (_ & _ & -> & _).
  cbn [ause a_tools]. rewrite prio_use.
  destruct (abinds_frame n_gotcha (libc_binds e) (ause (mkA (a_init a) true (a_tools a) (a_stack a) (a_orig a) (a_maps a)) n_gotcha)) as (_ & _ & -> & _).
  cbn [ause a_tools]. rewrite prio_use. reflexivity.
Qed.
Lemma amain_sub a n : sub_stack a (amain a n).
Proof.
  intros m x H. unfold SpecCore.amain. destruct (_ && _); [|auto]. apply abinds_sub. cbn [ause a_stack]. apply abinds_sub. auto.
Qed.
Lemma amain_new a n m x : In x (a_stack (amain a n) m) -> In x (a_stack a m) \/ (a_main a = false /\ In (en_wrapper x) [e_w_libc e; e_w_main e]).
Proof.
  unfold SpecCore.amain. destruct (cstr_eqb n n_main && negb (a_main a)) eqn:E; [|auto].
  assert (a_main a = false) by (destruct (a_main a); [rewrite andb_false_r in E; discriminate|reflexivity]).
  intros Hx. apply abinds_new in Hx. cbn [ause a_stack] in Hx. destruct Hx as [Hx|(u & A & B & C)].
  - apply abinds_new in Hx. cbn [ause a_stack] in Hx. destruct Hx as [Hx|(u & A & B & C)]; [auto|]. right. split; [auto|].
    destruct A as [<-|[]]. subst x. cbn. auto.
  - right. split; [auto|]. destruct A as [<-|[]]. subst x. cbn. auto.
Qed.
Lemma amain_main a n : a_main a = true -> a_main (amain a n) = true.
Proof. intros H. rewrite amain_true; auto. Qed.
Lemma amain_maps a n : a_maps (amain a n) = a_maps a /\ a_init (amain a n) = a_init a.
Proof.
  unfold SpecCore.amain. destruct (_ && _); [|auto].
  destruct (abinds_frame n_gotcha (main_binds e) (ause (fst (abinds (ause (mkA (a_init a) true (a_tools a) (a_stack a) (a_orig a) (a_maps a)) n_gotcha) n_gotcha (libc_binds e))) n_gotcha)) as (_ & -> & _ & ->).
  cbn [ause a_maps a_init].
  destruct (abinds_frame n_gotcha (libc_binds e) (ause (mkA (a_init a) true (a_tools a) (a_stack a) (a_orig a) (a_maps a)) n_gotcha)) as (_ & -> & _ & ->).
  auto.
Qed.

Lemma abinds_user_eq t ubs : forall a, (forall u, In u ubs -> ub_name u <> n_main) \/ a_main a = true -> abinds_user a t ubs = abinds a t ubs.
Proof.
  induction ubs as [|u r IH]; intros a H; cbn; [reflexivity|].
  assert (E : amain a (ub_name u) = a) by (destruct H as [H|H]; [apply amain_other, H; left; auto|apply amain_true; auto]).
  rewrite E. destruct (abind a t u) as [a1 f1] eqn:E1. rewrite IH; [reflexivity|].
  destruct H as [H|H]; [left; intros; apply H; right; auto|right]. pose proof (abind_main a t u) as H1. rewrite E1 in H1. cbn in H1. congruence.
Qed.
Lemma abinds_user_sub t ubs : forall a, sub_stack a (fst (abinds_user a t ubs)).
Proof.
  induction ubs as [|u r IH]; intros a n x H; cbn; [auto|].
  destruct (abind (amain a (ub_name u)) t u) as [a1 f1] eqn:E1. destruct (abinds_user a1 t r) as [a2 f2] eqn:E2. cbn.
  pose proof (IH a1) as H1. rewrite E2 in H1. apply H1. pose proof (abind_sub (amain a (ub_name u)) t u) as H2. rewrite E1 in H2. apply H2.
  apply amain_sub. auto.
Qed.
End Abs.

Lemma NoDup_app_intro {A} (l1 l2 : list A) : NoDup l1 -> NoDup l2 -> (forall x, In x l1 -> In x l2 -> False) -> NoDup (l1 ++ l2).
Proof.
  induction l1 as [|x r IH]; intros H1 H2 H; cbn; [auto|]. inversion H1; subst. constructor.
  - intros Hx. apply in_app_or in Hx. destruct Hx as [Hx|Hx]; [auto|]. apply (H x); [left; auto|auto].
  - apply IH; auto. intros y A1 A2. apply (H y); [right; auto|auto].
Qed.

(** *** adding a table of bindings *)
Definition bext (bs bs' : bstate) : Prop :=
  forall i x n, entry_of bs i = Some x -> name_of bs i = Some n -> entry_of bs' i = Some x /\ name_of bs' i = Some n.
Lemma bext_refl bs : bext bs bs.
Proof. intros i x n A B. auto. Qed.
Lemma bext_trans b1 b2 b3 : bext b1 b2 -> bext b2 b3 -> bext b1 b3.
Proof. intros A B i x n H1 H2. destruct (A _ _ _ H1 H2). auto. Qed.
Lemma bext_eq bs bs' : map buser (b_ib bs') = map buser (b_ib bs) -> b_tables bs' = b_tables bs -> b_tools bs' = b_tools bs -> bext bs bs'.
Proof. intros A B C i x n H1 H2. rewrite (buser_entry bs bs' i A B C), (buser_name bs bs' i A). auto. Qed.

Lemma null_handles_other ubs : forall hs h, ~ In h (map ub_handle ubs) -> null_handles ubs hs h = hs h.
Proof.
  unfold null_handles. induction ubs as [|u r IH]; intros hs h H; cbn; [reflexivity|].
  rewrite IH by (intros H1; apply H; right; auto). unfold fupd. destruct (Z.eqb_spec h (ub_handle u)); [|reflexivity].
  exfalso. apply H. left. auto.
Qed.

Lemma fill_bindings_spec tbl ubs : forall ibs hs,
  exists hs', fill_bindings tbl ubs ibs hs = (ibs ++ map (fun u => mkIB tbl u None Uninit) ubs, hs') /\
    (forall h, ~ In h (map ub_handle ubs) -> hs' h = hs h) /\
    (forall h, In h (map ub_handle ubs) -> exists k u, nth_error ubs k = Some u /\ ub_handle u = h /\ hs' h = Some (length ibs + k)%nat).
Proof.
  induction ubs as [|u r IH]; intros ibs hs; cbn [fill_bindings map].
  - exists hs. rewrite app_nil_r. split; [auto|]. split; [auto|]. intros h [].
  - destruct (IH (ibs ++ [mkIB tbl u None Uninit]) (fupd hs (ub_handle u) (Some (length ibs)))) as (hs' & E & H1 & H2).
    exists hs'. rewrite E, <- app_assoc. split; [reflexivity|]. split.
    + intros h H. rewrite H1 by (intros X; apply H; right; auto). unfold fupd. destruct (Z.eqb_spec h (ub_handle u)); [|reflexivity].
      exfalso. apply H. left. auto.
    + intros h H. destruct (in_dec Z.eq_dec h (map ub_handle r)) as [Hr|Hr].
      * destruct (H2 h Hr) as (k & u' & A & B & C). exists (S k), u'. split; [auto|]. split; [auto|]. rewrite C, app_length. cbn. f_equal. lia.
      * destruct H as [H|H]; [|contradiction]. exists 0%nat, u. split; [reflexivity|]. split; [auto|].
        rewrite H1 by auto. unfold fupd. subst h. rewrite Z.eqb_refl. f_equal. lia.
Qed.

Lemma create_ok {K D} ps n (hf : K -> Z) cmp : 48 <= ps -> exists t : htable K D, create_hashtable ps n hf cmp = Ok t.
Proof.
  intros H. unfold create_hashtable, sizeof_hash_entry. assert (1 <= ps / 48) by (apply Z.div_le_lower_bound; lia).
  destruct (Z.eqb_spec (ps / 48) 0); [lia|]. eauto.
Qed.

Lemma fill_hash_ok ubs : forall t l c i, ht_inv strhash libc_strcmp t l c -> exists t', fill_hash t ubs i = Ok t'.
Proof.
  induction ubs as [|u r IH]; intros t l c i I; cbn; [eauto|].
  destruct (addto_spec t l c (ub_name u) i I) as (t1 & l1 & c1 & E & I1 & _). rewrite E. cbn [bind]. eapply IH; eauto.
Qed.

Lemma upd_tbinding_names h i v : map t_name (upd h i (set_tbinding v)) = map t_name h.
Proof. apply upd_map. reflexivity. Qed.

Lemma tools_ok_binding ts l i v : tools_ok ts l -> tools_ok (mkTS (upd (ts_heap ts) i (set_tbinding v)) (ts_head ts)) l.
Proof.
  intros [A B C D P]. constructor; cbn.
  - eapply lseg_ext; [|exact A]. intros j _. apply upd_tbinding_next.
  - rewrite upd_length. auto.
  - rewrite upd_tbinding_names. auto.
  - erewrite map_ext; [exact D|]. intros j. unfold tprio. rewrite nth_error_upd. destruct (Nat.eqb i j); [|reflexivity].
    destruct (nth_error (ts_heap ts) j); reflexivity.
  - intros t Ht. apply In_nth_error in Ht. destruct Ht as [k Hk]. rewrite nth_error_upd in Hk. destruct (Nat.eqb i k).
    + destruct (nth_error (ts_heap ts) k) as [t0|] eqn:E; [|discriminate]. cbn in Hk. injection Hk as <-. cbn. apply P. eapply nth_error_In; eauto.
    + apply P. eapply nth_error_In; eauto.
Qed.

Lemma add_spec e bs tools stack ch todo ubs ts' l' tool t :
  brel bs tools stack ch todo -> 48 <= e_ps e -> tools_ok ts' l' ->
  (forall j x, nth_error (ts_heap (b_tools bs)) j = Some x -> exists x', nth_error (ts_heap ts') j = Some x' /\ t_name x' = t_name x) ->
  nth_error (ts_heap ts') tool = Some t ->
  exists bs' bt, add_binding_to_tool e (set_btools ts' (set_handles (null_handles ubs (b_handles bs)) bs)) tool ubs = Ok (bs', length (b_tables bs)) /\
    nth_error (b_tables bs') (length (b_tables bs)) = Some bt /\ bt_start bt = length (b_ib bs) /\
    brel bs' (tool_prios (ts_heap ts')) stack ch (seq (length (b_ib bs)) (length ubs) ++ todo) /\
    b_nf bs' = b_nf bs /\ b_ib bs' = b_ib bs ++ map (fun u => mkIB (length (b_tables bs)) u None Uninit) ubs /\ bext bs bs' /\
    (forall k u, nth_error ubs k = Some u -> entry_of bs' (length (b_ib bs) + k)%nat = Some (mkE (t_name t) (ub_wrapper u) (ub_handle u)) /\
                                             name_of bs' (length (b_ib bs) + k)%nat = Some (ub_name u)) /\
    (forall orig, wrel bs orig ch todo -> NoDup (map ub_handle ubs) ->
       (forall i ib u, nth_error (b_ib bs) i = Some ib -> In u ubs -> ub_handle (ib_user ib) <> ub_handle u) ->
       wrel bs' orig ch (seq (length (b_ib bs)) (length ubs) ++ todo)).
Proof.
  intros R Hps TO Hpres Ht. pose proof R as R0. destruct R as [R1 R2 R3 R4 R5 R6 R7 R8 R9 R10 R11].
  unfold add_binding_to_tool. cbn [b_tables b_ib b_handles b_tools set_btools set_handles b_all b_fn b_nf].
  set (len := length (b_ib bs)). set (tbl := length (b_tables bs)).
  destruct (fill_bindings_spec tbl ubs (b_ib bs) (null_handles ubs (b_handles bs))) as (hs & Ef & Hh1 & Hh2). rewrite Ef.
  set (news := map (fun u => mkIB tbl u None Uninit) ubs) in *.
  assert (HC : exists h, (do h <- create_hashtable (e_ps e) (Z.of_nat (length ubs) * 2) strhash libc_strcmp; fill_hash h ubs len) = Ok h).
  { destruct ubs as [|u r].
    - destruct (create_ok (D:=nat) (e_ps e) (Z.of_nat (@length ubind []) * 2) strhash libc_strcmp Hps) as [h ->]. cbn. eauto.
    - destruct (create_spec (D:=nat) (e_ps e) (Z.of_nat (length (u :: r)) * 2) strhash libc_strcmp Hps) as (h & Eh & I & _); [cbn [length]; lia|].
      rewrite Eh. cbn [bind]. eapply fill_hash_ok; eauto. }
  destruct HC as (h & HC). destruct (create_hashtable (e_ps e) (Z.of_nat (length ubs) * 2) strhash libc_strcmp) as [h0|]; [|discriminate].
  cbn [bind] in HC |- *. rewrite HC. cbn [bind]. rewrite (deref_Ok _ _ _ Ht). cbn [bind].
  set (bt := mkBT tool len (Z.of_nat (length ubs)) h (t_binding t) (b_all bs)).
  set (tools2 := mkTS (upd (ts_heap ts') tool (set_tbinding (Some tbl))) (ts_head ts')).
  set (bs' := mkBS tools2 (b_tables bs ++ [bt]) (Some tbl) (b_ib bs ++ news) hs (b_fn bs) (b_nf bs)).
  exists bs', bt. split; [reflexivity|].
  assert (Hbt : nth_error (b_tables bs') tbl = Some bt).
  { cbn. rewrite nth_error_app2 by (unfold tbl; lia). unfold tbl. rewrite Nat.sub_diag. reflexivity. }
  assert (Hold : forall i ib, nth_error (b_ib bs) i = Some ib -> nth_error (b_ib bs') i = Some ib).
  { intros i ib H. cbn. rewrite nth_error_app1; [auto|]. eapply nth_error_Some_lt; eauto. }
  assert (Holdt : forall i x, nth_error (b_tables bs) i = Some x -> nth_error (b_tables bs') i = Some x).
  { intros i ib H. cbn. rewrite nth_error_app1; [auto|]. eapply nth_error_Some_lt; eauto. }
  assert (Hto : forall j x, nth_error (ts_heap (b_tools bs)) j = Some x -> exists x', nth_error (ts_heap tools2) j = Some x' /\ t_name x' = t_name x).
  { intros j x H. destruct (Hpres j x H) as (x' & H1 & H2). unfold tools2. cbn. rewrite nth_error_upd. destruct (Nat.eqb tool j); [|eauto].
    rewrite H1. cbn. eexists. split; [reflexivity|]. auto. }
  assert (Htt : exists t', nth_error (ts_heap tools2) tool = Some t' /\ t_name t' = t_name t).
  { unfold tools2. cbn. rewrite nth_error_upd, Nat.eqb_refl, Ht. cbn. eexists. split; [reflexivity|auto]. }
  assert (Hent : forall i x, entry_of bs i = Some x -> entry_of bs' i = Some x).
  { intros i x H. unfold entry_of in *. destruct (nth_error (b_ib bs) i) as [ib|] eqn:E; [|discriminate]. rewrite (Hold _ _ E).
    destruct (nth_error (b_tables bs) (ib_table ib)) as [bt0|] eqn:E2; [|discriminate]. rewrite (Holdt _ _ E2).
    destruct (nth_error (ts_heap (b_tools bs)) (bt_tool bt0)) as [t0|] eqn:E3; [|discriminate].
    destruct (Hto _ _ E3) as (t1 & E4 & E5). unfold bs'. cbn [b_tools]. rewrite E4, E5. auto. }
  assert (Hnew : forall k u, nth_error ubs k = Some u -> nth_error (b_ib bs') (len + k)%nat = Some (mkIB tbl u None Uninit)).
  { intros k u H. cbn. rewrite nth_error_app2 by (unfold len; lia). replace (len + k - length (b_ib bs))%nat with k by (unfold len; lia).
    unfold news. rewrite nth_error_map, H. reflexivity. }
  assert (Hnewe : forall k u, nth_error ubs k = Some u -> entry_of bs' (len + k)%nat = Some (mkE (t_name t) (ub_wrapper u) (ub_handle u))).
  { intros k u H. unfold entry_of. rewrite (Hnew _ _ H). cbn [ib_table]. rewrite Hbt. cbn [bt_tool bt].
    destruct Htt as (t1 & E4 & E5). unfold bs' at 1. cbn [b_tools]. rewrite E4, E5. reflexivity. }
  assert (Hlen : length (b_ib bs') = (len + length ubs)%nat) by (cbn; rewrite app_length; unfold news; rewrite map_length; reflexivity).
  assert (Hsplit : forall i ib, nth_error (b_ib bs') i = Some ib -> (nth_error (b_ib bs) i = Some ib) \/
     exists k u, i = (len + k)%nat /\ nth_error ubs k = Some u /\ ib = mkIB tbl u None Uninit).
  { intros i ib H. destruct (le_lt_dec len i) as [L|L].
    - right. exists (i - len)%nat. cbn in H. rewrite nth_error_app2 in H by (unfold len in L; lia). unfold news in H. rewrite nth_error_map in H.
      fold len in H. destruct (nth_error ubs (i - len)) as [u|]; [|discriminate]. cbn in H. injection H as <-. exists u. split; [lia|auto].
    - left. cbn in H. rewrite nth_error_app1 in H by (unfold len in L; lia). auto. }
  assert (Hlt : forall n i, In i (ch n) -> (i < len)%nat).
  { intros n i Hi. pose proof (R7 _ _ Hi) as H. unfold name_of in H. destruct (nth_error (b_ib bs) i) eqn:E; [|discriminate].
    eapply nth_error_Some_lt; eauto. }
  assert (Hlt2 : forall i, In i todo -> (i < len)%nat).
  { intros i Hi. destruct (R8 i Hi) as [H _]. unfold inx in H. destruct (nth_error (b_ib bs) i) eqn:E; [|discriminate].
    eapply nth_error_Some_lt; eauto. }
  split; [exact Hbt|]. split; [reflexivity|]. split; [|spl].
  - constructor.
    + exists l'. apply tools_ok_binding. auto.
    + cbn. unfold tool_prios. apply upd_map. reflexivity.
    + intros i Hi. destruct (le_lt_dec len i) as [L|L].
      * destruct (nth_error_lt_Some ubs (i - len)) as [u Hu]; [lia|]. replace i with (len + (i - len))%nat by lia. rewrite (Hnewe _ _ Hu). discriminate.
      * destruct (entry_of bs i) as [x|] eqn:E; [rewrite (Hent _ _ E); discriminate|]. exfalso. apply (R3 i); [exact L|auto].
    + intros n. eapply Forall2_impl_In; [|apply R4]. intros i y _. apply Hent.
    + intros n. eapply lseg_ext; [|apply R5]. intros i Hi. apply Hlt in Hi. unfold inx. destruct (nth_error_lt_Some _ _ Hi) as [ib Hib].
      rewrite (Hold _ _ Hib), Hib. reflexivity.
    + auto.
    + intros n i Hi. pose proof (R7 _ _ Hi) as H. unfold name_of in *. destruct (nth_error (b_ib bs) i) eqn:E; [|discriminate].
      rewrite (Hold _ _ E). auto.
    + intros i Hi. apply in_app_or in Hi. destruct Hi as [Hi|Hi].
      * apply in_seq in Hi. destruct (nth_error_lt_Some ubs (i - len)) as [u Hu]; [lia|]. split.
        -- unfold inx. replace i with (len + (i - len))%nat by lia. rewrite (Hnew _ _ Hu). reflexivity.
        -- intros n Hn. apply Hlt in Hn. lia.
      * destruct (R8 i Hi) as [A B]. split; [|auto]. unfold inx in *. destruct (nth_error (b_ib bs) i) eqn:E; [|discriminate]. rewrite (Hold _ _ E). auto.
    + apply NoDup_app_intro; [apply seq_NoDup|auto|]. intros i A B. apply in_seq in A. apply Hlt2 in B. lia.
    + intros i ib Hi. rewrite Hlen. cbn [bs' b_handles].
      destruct (in_dec Z.eq_dec (ub_handle (ib_user ib)) (map ub_handle ubs)) as [Hin|Hin].
      * destruct (Hh2 _ Hin) as (k & u & A & B & C). exists (len + k)%nat. split; [auto|]. apply nth_error_Some_lt in A. lia.
      * destruct (Hsplit _ _ Hi) as [Ho|(k & u & A & B & C)].
        -- destruct (R10 _ _ Ho) as (j & A & B). exists j. split; [|unfold len; lia]. rewrite Hh1 by auto. rewrite null_handles_other by auto. auto.
        -- exfalso. apply Hin. subst ib. cbn. apply in_map. eapply nth_error_In; eauto.
    + exact R11.
  - reflexivity.
  - reflexivity.
  - intros i x n H1 H2. split; [auto|]. unfold name_of in *. destruct (nth_error (b_ib bs) i) eqn:E; [|discriminate]. rewrite (Hold _ _ E). auto.
  - intros k u Hu. split; [auto|]. unfold name_of. rewrite (Hnew _ _ Hu). reflexivity.
  - intros orig [W1 W2 W3 W4] ND Hfr. constructor.
    + intros i ib Hi. cbn [bs' b_handles]. destruct (Hsplit _ _ Hi) as [Ho|(k & u & A & B & C)].
      * assert (Hni : ~ In (ub_handle (ib_user ib)) (map ub_handle ubs)).
        { intros H. apply in_map_iff in H. destruct H as (u & A & B). apply (Hfr _ _ _ Ho B). auto. }
        rewrite Hh1 by auto. rewrite null_handles_other by auto. auto.
      * subst ib. cbn [ib_user]. destruct (Hh2 (ub_handle u)) as (k' & u' & A' & B' & C'); [apply in_map; eapply nth_error_In; eauto|].
        rewrite C'. subst i. f_equal. f_equal. eapply (NoDup_map_nth ub_handle ubs); eauto.
    + intros n. eapply links_ext; [| |apply W2].
      * intros i Hi. apply Hlt in Hi. unfold wee. destruct (nth_error_lt_Some _ _ Hi) as [ib Hib]. rewrite (Hold _ _ Hib), Hib. reflexivity.
      * intros i Hi. apply Hlt in Hi. unfold wrp. destruct (nth_error_lt_Some _ _ Hi) as [ib Hib]. rewrite (Hold _ _ Hib), Hib. reflexivity.
    + intros i Hi. apply in_app_or in Hi. destruct Hi as [Hi|Hi].
      * apply in_seq in Hi. destruct (nth_error_lt_Some ubs (i - len)) as [u Hu]; [lia|].
        unfold wee. replace i with (len + (i - len))%nat by lia. rewrite (Hnew _ _ Hu). reflexivity.
      * pose proof (W3 i Hi) as H. unfold wee in *. destruct (nth_error (b_ib bs) i) eqn:E; [|discriminate]. rewrite (Hold _ _ E). auto.
    + intros i Hi. destruct (le_lt_dec len i) as [L|L].
      * left. apply in_or_app. left. apply in_seq. lia.
      * destruct (W4 i L) as [H|H]; [left; apply in_or_app; auto|auto].
Qed.
