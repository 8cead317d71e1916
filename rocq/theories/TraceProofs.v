(** Proofs about TraceModel: every moment of an operation. *)
From Verif Require Import Base ListFacts HashModel ElfModel ToolModel CoreModel TraceModel SpecCore SpecRun SpecTrace HashProofs HashTrace ToolProofs CoreMaps CoreRel CoreLib CoreWrap CoreStep CoreLoop CoreMain CoreSpec CoreMicro TraceErase.

Definition good (a : astate) (v : vis) : Prop := forall n, vwired v (a_stack a n) (a_orig a n).

Lemma vwired_ext v v' o : forall s, (forall x, In x s -> vwrappee v' (en_handle x) = vwrappee v (en_handle x)) -> vwired v s o -> vwired v' s o.
Proof.
  induction s as [|x r IH]; intros H W; cbn [vwired] in *; [auto|]. destruct W as [W1 W2]. rewrite (H x (or_introl eq_refl)). split; [auto|]. apply IH; [|auto].
  intros y Hy. apply H. right. auto.
Qed.
Lemma vwrappee_veq v v' h : veq v v' -> vwrappee v' h = vwrappee v h.
Proof. intros (A & B & _). unfold vwrappee. rewrite A. destruct (v_handles v' h); [rewrite B|]; reflexivity. Qed.
Lemma good_veq a v v' : veq v v' -> good a v -> good a v'.
Proof. intros E G n. eapply vwired_ext; [|apply G]. intros x _. apply vwrappee_veq. auto. Qed.
Lemma good_ext a v v' : (forall n x, In x (a_stack a n) -> vwrappee v' (en_handle x) = vwrappee v (en_handle x)) -> good a v -> good a v'.
Proof. intros H G n. eapply vwired_ext; [|apply G]. intros x. apply H. Qed.
Lemma good_same a a' v : (forall n, a_stack a' n = a_stack a n) -> (forall n, a_orig a' n = a_orig a n) -> good a v -> good a' v.
Proof. intros S O G n. rewrite S, O. apply G. Qed.

(** *** trails *)
Section Trail.
Context (le : astate -> astate -> Prop) (sl : astate -> Z -> Z -> Prop).
Inductive trail : astate -> vis -> list wevent -> astate -> Prop :=
| tr_nil a v : good a v -> trail a v [] a
| tr_ev a v w ws a1 a' : good a v -> le a a1 -> (forall x y, w = WSlot x y -> sl a x y) -> trail a1 (vapply v w) ws a' -> trail a v (w :: ws) a'
| tr_mv a v ws a1 a' : good a v -> le a a1 -> trail a1 v ws a' -> trail a v ws a'.

Lemma trail_veq a v ws a' : trail a v ws a' -> forall v', veq v v' -> trail a v' ws a'.
Proof.
  induction 1 as [a v G|a v w ws a1 a' G L S T IH|a v ws a1 a' G L T IH]; intros v' E.
  - apply tr_nil. eapply good_veq; eauto.
  - eapply tr_ev; [eapply good_veq; eauto|exact L|exact S|]. apply IH. apply vapply_veq. auto.
  - eapply tr_mv; [eapply good_veq; eauto|exact L|]. auto.
Qed.
Lemma trail_app a v w1 a1 : trail a v w1 a1 -> forall v1 w2 a', veq (vapplys w1 v) v1 -> trail a1 v1 w2 a' -> trail a v (w1 ++ w2) a'.
Proof.
  induction 1 as [a v G|a v w ws a1 a' G L S T IH|a v ws a1 a' G L T IH]; intros v1 w2 a2 E T2.
  - eapply trail_veq; [exact T2|apply veq_sym; exact E].
  - cbn [app]. eapply tr_ev; eauto.
  - eapply tr_mv; eauto.
Qed.
Context (le_refl : forall a, le a a) (le_trans : forall a b c, le a b -> le b c -> le a c).
Lemma trail_le a v w a' : trail a v w a' -> le a a'.
Proof. induction 1; eauto. Qed.
Lemma trail_quiet a v : good a v -> trail a v [] a.
Proof. apply tr_nil. Qed.
Lemma trail_move a v w a1 a' : trail a v w a1 -> le a1 a' -> (forall v, good a1 v -> good a' v) -> trail a v w a'.
Proof.
  intros T L H. induction T as [a v G|a v w ws a1 a2 G L1 S T IH|a v ws a1 a2 G L1 T IH].
  - eapply tr_mv; [exact G|exact L|]. apply tr_nil. auto.
  - eapply tr_ev; eauto.
  - eapply tr_mv; eauto.
Qed.
(** at most one store *)
Lemma trail_one a v w a' : good a v -> good a' (vapplys w v) -> le a a' -> (length w <= 1)%nat -> (forall x y, ~ In (WSlot x y) w) -> trail a v w a'.
Proof.
  intros G G' L H N. destruct w as [|x [|y r]]; [|..].
  - eapply tr_mv; [exact G|exact L|]. apply tr_nil. exact G'.
  - eapply tr_ev; [exact G|exact L| |apply tr_nil; exact G']. intros p q ->. exfalso. eapply N. left. reflexivity.
  - cbn in H. lia.
Qed.
Lemma trail_prefix (sl_mono : forall a b x y, le a b -> sl a x y -> sl b x y) a v w a' : trail a v w a' -> forall w1 w2, w = w1 ++ w2 ->
  exists b, le a b /\ le b a' /\ good b (vapplys w1 v) /\ forall x y, In (WSlot x y) w1 -> sl b x y.
Proof.
  induction 1 as [a v G|a v w ws a1 a' G L S T IH|a v ws a1 a' G L T IH]; intros w1 w2 E.
  - symmetry in E. apply app_eq_nil in E. destruct E as [-> ->]. exists a. split; [auto|]. split; [auto|]. split; [exact G|]. intros x y [].
  - destruct w1 as [|u r].
    + exists a. split; [auto|]. split; [apply le_trans with a1; [auto|eapply trail_le; eauto]|]. split; [exact G|]. intros x y [].
    + cbn in E. injection E as <- E. destruct (IH _ _ E) as (b & L1 & L2 & Gb & Sb). exists b. split; [eauto|]. split; [auto|]. split; [exact Gb|].
      intros x y [->|I]; [|auto]. eapply sl_mono; [|apply S; reflexivity]. eauto.
  - destruct (IH _ _ E) as (b & L1 & L2 & Gb & Sb). exists b. eauto 6.
Qed.
End Trail.

(** the stacks grow, and only a function without wrappers gets another original function *)
Definition wle (a b : astate) : Prop :=
  forall n, subseq (a_stack a n) (a_stack b n) /\ (a_orig b n = a_orig a n \/ a_stack a n = []).
Lemma wle_refl a : wle a a.
Proof. intros n. split; [apply subseq_refl|auto]. Qed.
Lemma subseq_nil_inv {A} (l : list A) : subseq l [] -> l = [].
Proof. intros H. inversion H. reflexivity. Qed.
Lemma wle_trans a b c : wle a b -> wle b c -> wle a c.
Proof.
  intros H K n. destruct (H n) as [S1 O1], (K n) as [S2 O2]. split; [eapply subseq_trans; eauto|].
  destruct O1 as [O1|O1]; [|auto]. destruct O2 as [O2|O2]; [left; congruence|]. right. apply subseq_nil_inv. rewrite <- O2. exact S1.
Qed.
Lemma wle_same a b : (forall n, a_stack b n = a_stack a n) -> (forall n, a_orig b n = a_orig a n) -> wle a b.
Proof. intros H K n. rewrite H, K. split; [apply subseq_refl|auto]. Qed.

(** *** taking computations apart *)
Lemma tthen_Ok {A B} (m : tmon A) (k : A -> tmon B) b w : tthen m k = Ok (b, w) -> exists a w1 w2, m = Ok (a, w1) /\ k a = Ok (b, w2) /\ w = w1 ++ w2.
Proof.
  unfold tthen. destruct m as [[a w1]|f]; cbn [bind]; [|discriminate]. destruct (k a) as [[b' w2]|f] eqn:E; cbn [bind]; [|discriminate]. intros H. injection H as <- <-. eauto 6.
Qed.
Lemma tlift_Ok {A} (o : outcome A) a w : tlift o = Ok (a, w) -> o = Ok a /\ w = [].
Proof. destruct o; cbn; [|discriminate]. intros H. injection H as <- <-. auto. Qed.
Lemma tret_Ok {A} (x a : A) w : tret x = Ok (a, w) -> x = a /\ w = [].
Proof. intros H. injection H as <- <-. auto. Qed.
(** a step taken by [tlift], by [tell], or with stores *)
Tactic Notation "tl" hyp(E) "as" simple_intropattern(p) ident(B) :=
  apply tthen_Ok in E; let w1 := fresh in let w2 := fresh in let H := fresh in destruct E as (p & w1 & w2 & B & E & H);
  apply tlift_Ok in B; let K := fresh in destruct B as [B K]; subst w1; cbn [app] in H; subst w2.
Tactic Notation "tb" hyp(E) "as" simple_intropattern(p) ident(w1) ident(w2) ident(B) :=
  apply tthen_Ok in E; let H := fresh in destruct E as (p & w1 & w2 & B & E & H); subst.

(** *** shape of the stores *)
Definition noslot (ws : list wevent) : Prop := forall x y, ~ In (WSlot x y) ws.
Lemma noslot_nil : noslot [].
Proof. intros x y []. Qed.
Lemma set_wrappee_shape bs h x bs' ws : set_wrappee_t bs h x = Ok (bs', ws) -> exists i, b_handles bs h = Some i /\ ws = [WWrappee i x] /\ b_handles bs' = b_handles bs.
Proof.
  unfold set_wrappee_t, set_wrappee. destruct (b_handles bs h) as [i|]; cbn; [|discriminate]. intros H. injection H as <- <-. exists i. auto.
Qed.
Lemma prepare_shape e st b st' f ws : prepare_symbol_t e st b = Ok ((st', f), ws) -> (length ws <= 1)%nat /\ noslot ws.
Proof.
  unfold prepare_symbol_t. intros E. tl E as ib B1. tl E as [l r] B2. destruct r as [a|].
  - tb E as bs w1 w2 B3. apply set_wrappee_shape in B3. destruct B3 as (i & _ & -> & _). apply tret_Ok in E. destruct E as [_ ->]. split; [cbn; lia|]. intros x y [H|[]]. discriminate.
  - apply tret_Ok in E. destruct E as [_ ->]. split; [cbn; lia|apply noslot_nil].
Qed.
Lemma place_shape bs b n w p bs' r ws ib : place_binding_t bs b n w p = Ok ((bs', r), ws) -> nth_error (b_ib bs) b = Some ib -> b_handles bs (ub_handle (ib_user ib)) = Some b ->
  noslot ws /\ (need_lookup r = true -> ws = []) /\ ((length ws <= 1)%nat \/ exists v w2, ws = [WWrappee b v; w2]).
Proof.
  unfold place_binding_t. intros E Hb Hh. tl E as h B1. destruct h as [h|].
  - tl E as hp B2. destruct (hp <? p).
    + tb E as bs1 w1 w2 B3. apply tret_Ok in E. destruct E as [E ->]. injection E as _ <-. unfold insert_at_head_t in B3. tl B3 as ib1 C1. tl B3 as hb C2. tb B3 as bs2 w3 w4 C3.
      tl B3 as [t x] C4. tl B3 as t2 C5. apply tret_Ok in B3. destruct B3 as [_ ->]. apply set_wrappee_shape in C3. destruct C3 as (i & _ & -> & _). cbn.
      split; [intros x' y [H|[]]; discriminate|]. split; [discriminate|left; lia].
    + tl E as c B3. destruct c as [pos|].
      * tb E as bs1 w1 w2 B4. apply tret_Ok in E. destruct E as [E ->]. injection E as _ <-. unfold insert_after_pos_t in B4. tl B4 as ib1 C1. tl B4 as pb C2. tb B4 as bs2 w3 w4 C3.
        tb B4 as bs3 w5 w6 C4. tl B4 as pb2 C5. apply tret_Ok in B4. destruct B4 as [_ ->]. unfold deref in C1. rewrite Hb in C1. injection C1 as <-.
        apply set_wrappee_shape in C3. destruct C3 as (i & Hi & -> & _). apply set_wrappee_shape in C4. destruct C4 as (j & _ & -> & _). assert (i = b) by congruence. subst i. cbn.
        split; [intros x y [H|[H|[]]]; discriminate|]. split; [discriminate|]. right. eauto.
      * apply tret_Ok in E. destruct E as [E ->]. injection E as _ <-. split; [apply noslot_nil|]. split; [auto|left; cbn; lia].
  - tl E as t B2. apply tret_Ok in E. destruct E as [E ->]. injection E as _ <-. split; [apply noslot_nil|]. split; [auto|left; cbn; lia].
Qed.
