(** Every internal binding reads the element it was given in, also after stores. *)
From Verif Require Import Base ListFacts HashModel ElfModel ToolModel CoreModel SpecCore SpecRun HashProofs HashTrace ToolProofs CoreMaps CoreRel CoreMicro CoreApi3 FailProofs2 ArrModel SpecArr ArrProofs.

Definition users (st : state) : list ubind := map ib_user (b_ib (s_b st)).
Definition ext (st st' : state) : Prop := exists more, users st' = users st ++ more.
Lemma ext_refl st : ext st st.
Proof. exists []. rewrite app_nil_r. reflexivity. Qed.
Lemma ext_trans st1 st2 st3 : ext st1 st2 -> ext st2 st3 -> ext st1 st3.
Proof. intros (m1 & E1) (m2 & E2). exists (m1 ++ m2). rewrite E2, E1, app_assoc. reflexivity. Qed.
Lemma nth_ext_eq {A} (l l' : list A) : length l' = length l -> (forall i x, nth_error l i = Some x -> nth_error l' i = Some x) -> l' = l.
Proof.
  revert l'. induction l as [|x l IH]; intros [|y l'] L H; cbn in *; try discriminate; [reflexivity|]. specialize (H 0%nat x eq_refl) as H0. injection H0 as ->. f_equal. apply IH; [lia|]. intros i z Hz. exact (H (Datatypes.S i) z Hz).
Qed.
Lemma same_users l l' : ib_same l l' -> map ib_user l' = map ib_user l.
Proof.
  intros [L H]. apply nth_ext_eq; [rewrite !map_length; exact L|]. intros i u Hi. rewrite nth_error_map in *. destruct (nth_error l i) as [b|] eqn:E; [|discriminate Hi]. destruct (H i b E) as (b' & -> & U & _). cbn in *. congruence.
Qed.
Lemma mic_ext e st tr st' : mic e st tr st' -> ext st st'.
Proof.
  intros [n l r E|g|ibs t l p E| |bs B|tool t ubs bs tbl T E]; try (exists []; rewrite app_nil_r; reflexivity).
  - exists []. rewrite app_nil_r. apply (same_users _ _ (bs_ib _ _ B)).
  - destruct (add_shape _ _ _ _ _ _ E) as (bt & _ & _ & Ei). exists ubs. unfold users. cbn [s_b set_b]. rewrite Ei, map_app, map_map. cbn. rewrite map_id. reflexivity.
Qed.
Lemma mics_ext e tr st st' : mics e tr st st' -> ext st st'.
Proof. induction 1 as [|tr1 tr2 st st1 st2 M _ IH]; [apply ext_refl|]. eapply ext_trans; [eapply mic_ext; exact M|exact IH]. Qed.
Lemma imics_ext e st st' : imics e st st' -> ext st st'.
Proof. intros (tr & _ & M). eapply mics_ext; exact M. Qed.
Lemma inits_ext e st st' : inits e st st' -> ext st st'.
Proof. intros [->|(_ & _ & _ & _ & _ & _ & _ & B)]; [apply ext_refl|]. exists []. rewrite app_nil_r. apply (same_users _ _ (bs_ib _ _ B)). Qed.
Lemma init_ext e n st st' : gotcha_init e (wrap_n e n) st = Ok st' -> s_init st' = true /\ ext st st'.
Proof. intros E. destruct (inits_of _ _ _ _ E) as (I & st0 & H & _ & M). split; [exact I|]. eapply ext_trans; [eapply inits_ext; exact H|eapply imics_ext; exact M]. Qed.
Lemma step_ext e st o st' r : step e st o = Ok (st', r) -> ext st st'.
Proof.
  intros E. assert (D : gotcha_op o \/ users st' = users st).
  { destruct o; cbn [gotcha_op]; try (left; exact I); right; cbn [step] in E; injection E as <- _; reflexivity. }
  destruct D as [G|D]; [|exists []; rewrite app_nil_r; exact D].
  destruct (step_mics _ _ _ _ _ G E) as [(-> & _)|(st1 & tr & H & _ & M & _)]; [apply ext_refl|]. eapply ext_trans; [eapply inits_ext; exact H|eapply mics_ext; exact M].
Qed.
Lemma wrap_tool_users e n st ubs tool st' c : s_init st = true -> wrap_tool e (wrap_n e n) st ubs tool = Ok (st', c) -> exists more, users st' = users st ++ ubs ++ more.
Proof.
  intros I E. unfold wrap_tool in E. iba E as [ts i]. iba E as [bs tbl]. iba E as bt. iba E as [st1 pr]. iba E as st2. injection E as <- _.
  destruct (add_shape _ _ _ _ _ _ B0) as (_ & _ & _ & Ei). pose proof B2 as M. apply (wrap_loop_mics e (wrap_n e n) (wrap_n_mics e n)) in M; [|exact I].
  assert (M2 : imics e st1 st2) by (destruct (pr_new pr); [eapply update_all_mics; eassumption|injection B3 as <-; apply imics_nil]).
  destruct (imics_ext _ _ _ (imics_trans _ _ _ _ M M2)) as (more & X). exists more. rewrite X. unfold users. cbn [s_b set_b]. rewrite Ei, map_app, map_map. cbn. rewrite map_id, app_assoc. reflexivity.
Qed.

(** ** the invariant *)
Definition vok (v : vstate) : Prop :=
  length (v_of v) = length (b_ib (s_b (v_st v))) /\ forall k a i, nth_error (v_of v) k = Some (Some (a, i)) -> nth_error (users (v_st v)) k = Some (v_arr v a i).
Lemma users_length st : length (users st) = length (b_ib (s_b st)).
Proof. apply map_length. Qed.
Lemma pad_length of st : (length of <= length (b_ib (s_b st)))%nat -> length (pad of st) = length (b_ib (s_b st)).
Proof. intros H. unfold pad. rewrite app_length, repeat_length. lia. Qed.
Lemma pad_nth of st k x : nth_error (pad of st) k = Some (Some x) -> nth_error of k = Some (Some x).
Proof.
  unfold pad. intros H. destruct (Nat.lt_ge_cases k (length of)) as [L|L]; [rewrite nth_error_app1 in H by exact L; exact H|]. rewrite nth_error_app2 in H by exact L. apply nth_error_In, repeat_spec in H. discriminate H.
Qed.
Lemma ext_pad arr of st st' : length of = length (b_ib (s_b st)) -> (forall k a i, nth_error of k = Some (Some (a, i)) -> nth_error (users st) k = Some (arr a i)) -> ext st st' -> vok (mkV st' arr (pad of st')).
Proof.
  intros L H (more & X). pose proof (f_equal (@length _) X) as XL. rewrite app_length, !users_length in XL. split; cbn [v_of v_st v_arr].
  - apply pad_length. lia.
  - intros k a i Hk. apply pad_nth in Hk. specialize (H k a i Hk). rewrite X, nth_error_app1; [exact H|]. apply nth_error_Some. congruence.
Qed.
Lemma vstep_ok e v o v' rs : vok v -> vstep e v o = Ok (v', rs) -> vok v'.
Proof.
  intros [L H] E. destruct o as [a i u|a off n tool|o]; cbn [vstep] in E.
  - injection E as <- _. split; cbn [v_of v_st v_arr].
    + cbn [s_b set_b b_ib set_ib]. rewrite repoint_length. exact L.
    + intros k a' i' Hk. specialize (H k a' i' Hk). unfold users in *. cbn [s_b set_b b_ib set_ib]. rewrite nth_error_map in *. rewrite repoint_nth, Hk. destruct (nth_error (b_ib (s_b (v_st v))) k) as [b|]; [|discriminate H]. cbn [option_map points] in *.
      destruct (Nat.eqb a' a && Nat.eqb i' i); [reflexivity|exact H].
  - iba E as st1. iba E as [st2 c]. injection E as <- _. destruct (init_ext _ _ _ _ B) as (I & X). destruct (ext_pad (v_arr v) _ _ _ L H X) as [L1 H1]. cbn [v_of v_st v_arr] in L1, H1.
    destruct (wrap_tool_users _ _ _ _ _ _ _ I B0) as (more & Y).
    set (of := pad (v_of v) st1 ++ map (fun i => Some (a, i)) (seq off n)).
    pose proof (f_equal (@length _) Y) as YL. rewrite !app_length, !users_length, map_length, seq_length in YL.
    split; cbn [v_of v_st v_arr].
    + apply pad_length. unfold of. rewrite app_length, map_length, seq_length. lia.
    + intros k a' i' Hk. apply pad_nth in Hk. unfold of in Hk. rewrite Y. destruct (Nat.lt_ge_cases k (length (pad (v_of v) st1))) as [Lk|Lk].
      * rewrite nth_error_app1 in Hk by exact Lk. rewrite nth_error_app1 by (rewrite users_length; lia). exact (H1 k a' i' Hk).
      * rewrite nth_error_app2 in Hk by exact Lk. rewrite nth_error_app2 by (rewrite users_length; lia). rewrite users_length, <- L1. rewrite nth_error_map in Hk.
        destruct (nth_error (seq off n) (k - length (pad (v_of v) st1))) as [j|] eqn:J; [|discriminate Hk]. injection Hk as <- <-. rewrite nth_error_app1 by (rewrite map_length; apply nth_error_Some; congruence).
        rewrite nth_error_map, J. reflexivity.
  - iba E as [st1 x]. injection E as <- _. exact (ext_pad (v_arr v) _ _ _ L H (step_ext _ _ _ _ _ B)).
Qed.
Lemma vrun_ok e : forall ops v v' rs, vok v -> vrun e v ops = Ok (v', rs) -> vok v'.
Proof.
  induction ops as [|o ops IH]; intros v v' rs K E; cbn [vrun] in E; [injection E as <- _; exact K|]. iba E as [v1 xs]. iba E as [v2 ys]. injection E as <- _. eapply IH; [|exact B0]. eapply vstep_ok; eassumption.
Qed.
Lemma vinit_ok maps mem arr : vok (vinit maps mem arr).
Proof. split; [reflexivity|]. intros [|k] a i H; discriminate H. Qed.

Lemma set_user_back u b : set_user (ib_user b) (set_user u b) = b.
Proof. destruct b. reflexivity. Qed.
Lemma repoint_back a i u w : forall of ibs, (forall k b, nth_error of k = Some (Some (a, i)) -> nth_error ibs k = Some b -> ib_user b = w) -> repoint a i w of (repoint a i u of ibs) = ibs.
Proof.
  induction of as [|o of IH]; intros [|b ibs] H; cbn [repoint]; try reflexivity. f_equal.
  - destruct o as [[a' i']|]; cbn [points]; [|reflexivity]. destruct (Nat.eqb_spec a' a) as [->|]; [|reflexivity]. destruct (Nat.eqb_spec i' i) as [->|]; [|reflexivity]. cbn [andb].
    rewrite <- (H 0%nat b eq_refl eq_refl). apply set_user_back.
  - apply IH. intros k b' H1 H2. exact (H (Datatypes.S k) b' H1 H2).
Qed.
