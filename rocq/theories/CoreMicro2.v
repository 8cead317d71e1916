(** Invariants of small steps hold throughout histories; the list of libraries and the registry of bindings. *)
From Verif Require Import Base ListFacts HashModel HashProofs SpecHash HashTrace ElfModel ToolModel CoreModel SpecCore SpecRun ToolProofs CoreMaps CoreRel CoreFacts CoreApi CoreMicro SpecReg.

Lemma run_end e l o st0 st rs : run e st0 (l ++ [o]) = Ok (st, rs) -> exists st1 rs1 r, run e st0 l = Ok (st1, rs1) /\ step e st1 o = Ok (st, r).
Proof.
  rewrite run_app. destruct (run e st0 l) as [[st1 rs1]|] eqn:E; [|discriminate]. cbn [bind]. rewrite run_one.
  destruct (step e st1 o) as [[st2 x]|] eqn:Es; [|discriminate]. cbn [bind]. intros H. injection H as <- _. eauto 6.
Qed.

Section Lift.
Context (e : env) (maps : list lmap) (mem : Z -> Z) (P : list op -> trace -> state -> Prop).
Context (H0 : P [] [] (init_state maps mem)).
Context (Hother : forall l o tr st st' r, P l tr st -> ~ gotcha_op o -> step e st o = Ok (st', r) -> P (l ++ [o]) tr st').
Context (Hop : forall l o tr st, P l tr st -> gotcha_op o -> P (l ++ [o]) tr st).
Context (Hinit : forall l tr st st', P l tr st -> p_maps (s_p st) = maps_after maps l -> inits e st st' -> s_init st' = true -> P l tr st').
Context (Hmic : forall l tr st tr1 st', P l tr st -> p_maps (s_p st) = maps_after maps l -> s_init st = true -> mic e st tr1 st' -> P l (tr ++ tr1) st').

Lemma lift_mics l tr1 st st' : mics e tr1 st st' -> forall tr, P l tr st -> p_maps (s_p st) = maps_after maps l -> s_init st = true -> P l (tr ++ tr1) st'.
Proof.
  induction 1 as [st|tr1 tr2 st st1 st2 M _ IH]; intros tr Q E I; [rewrite app_nil_r; auto|]. rewrite app_assoc. destruct (mic_frame _ _ _ _ M) as (F1 & F2 & F3).
  apply IH; [eapply Hmic; eauto| |]; congruence.
Qed.
Lemma lift ops : forall st rs, run e (init_state maps mem) ops = Ok (st, rs) ->
  p_maps (s_p st) = maps_after maps ops /\ exists tr, P ops tr st /\ foreign tr = foreign (flat_map op_table ops).
Proof.
  induction ops as [|o l IH] using rev_ind; intros st rs E; [cbn in E; injection E as <- _; split; [auto|]; exists []; auto|].
  destruct (run_end _ _ _ _ _ _ E) as (st0 & rs0 & r & E0 & E1). destruct (IH _ _ E0) as (EM & tr & Q & F). rewrite maps_after_app, flat_map_app, foreign_app. cbn [flat_map]. rewrite app_nil_r.
  assert (D : gotcha_op o \/ ~ gotcha_op o) by (destruct o; cbn; tauto). destruct D as [G|G].
  - assert (EM' : maps_after (maps_after maps l) [o] = maps_after maps l) by (destruct o; cbn in G |- *; tauto). rewrite EM'.
    destruct (step_mics _ _ _ _ _ G E1) as [(-> & _ & ->)|(st1 & tr1 & I & I1 & M & F1)].
    + split; [auto|]. exists tr. split; [apply Hop; auto|]. rewrite F. cbn. rewrite app_nil_r. auto.
    + assert (E2 : p_maps (s_p st1) = maps_after maps l). { destruct I as [->|(_ & _ & _ & _ & _ & _ & -> & _)]; auto. }
      split; [destruct (mics_frame _ _ _ _ M) as (_ & -> & _); auto|]. exists (tr ++ tr1). split; [|rewrite foreign_app; congruence].
      apply Hop; [|auto]. eapply lift_mics; eauto.
  - split.
    + destruct o; cbn in G; try tauto; cbn in E1; injection E1 as <- _; cbn [maps_after s_p set_p p_maps set_filter]; congruence.
    + exists tr. split; [eapply Hother; eauto|]. rewrite F. replace (op_table o) with (@nil (cstr * list ubind)) by (destruct o; cbn in G |- *; tauto). rewrite app_nil_r. auto.
Qed.
End Lift.

(** *** the list of libraries *)
Definition list_ok (l : lstate) : Prop :=
  l_list l = pred_of (length (l_heap l)) /\
  forall i x, nth_error (l_heap l) i = Some x -> lb_next x = pred_of i /\ lb_prev x = if Nat.ltb (S i) (length (l_heap l)) then Some (S i) else None.

Lemma track_list l m l' i : list_ok l -> track_library l m = Ok (l', i) -> list_ok l'.
Proof.
  intros [A B] E. unfold track_library in E. iba E as o. destruct o; [injection E as <- _; split; auto|]. unfold add_library in E. ib E. injection E as <- _.
  set (h := l_heap l) in *. assert (EH : match l_list l with Some j => upd h j (set_lprev (Some (length h))) | None => h end = match length h with O => h | S k => upd h k (set_lprev (Some (length h))) end).
  { rewrite A. destruct (length h); reflexivity. }
  rewrite EH. set (h' := match length h with O => h | S k => upd h k (set_lprev (Some (length h))) end).
  assert (L : length h' = length h) by (unfold h'; destruct (length h) eqn:Q; [auto|rewrite upd_length; auto]).
  unfold list_ok. cbn [l_list l_heap]. rewrite app_length, L. cbn [length]. rewrite Nat.add_1_r. split; [reflexivity|].
  intros j x H. destruct (le_lt_dec (length h) j) as [C|C].
  - rewrite nth_error_app2 in H by lia. rewrite L in H. destruct (j - length h)%nat as [|k] eqn:Q; [|destruct k; discriminate H]. injection H as <-. cbn [lb_next lb_prev].
    assert (j = length h) by lia. subst j. split; [auto|]. rewrite (proj2 (Nat.ltb_ge _ _)) by lia. auto.
  - rewrite nth_error_app1 in H by lia. rewrite (proj2 (Nat.ltb_lt (S j) (S (length h)))) by lia.
    unfold h' in H. destruct (length h) as [|k] eqn:Q; [lia|]. rewrite nth_error_upd in H. destruct (Nat.eqb k j) eqn:Ek.
    + apply Nat.eqb_eq in Ek. subst k. destruct (nth_error h j) as [y|] eqn:Y; [|discriminate H]. cbn in H. injection H as <-. cbn. destruct (B _ _ Y). auto.
    + apply Nat.eqb_neq in Ek. destruct (B _ _ H) as [N1 N2]. split; [auto|]. rewrite N2. rewrite (proj2 (Nat.ltb_lt _ _)) by lia. auto.
Qed.
Definition links_same (h h' : list library) : Prop :=
  length h' = length h /\ forall i x, nth_error h' i = Some x -> exists y, nth_error h i = Some y /\ lb_next x = lb_next y /\ lb_prev x = lb_prev y.
Lemma links_upd h i f : (forall x, lb_next (f x) = lb_next x /\ lb_prev (f x) = lb_prev x) -> links_same h (upd h i f).
Proof.
  intros F. split; [apply upd_length|]. intros j x H. rewrite nth_error_upd in H. destruct (Nat.eqb i j); [|eauto]. destruct (nth_error h j) as [y|]; [|discriminate H]. cbn in H. injection H as <-. exists y. split; [auto|apply F].
Qed.
Lemma links_trans h1 h2 h3 : links_same h1 h2 -> links_same h2 h3 -> links_same h1 h3.
Proof. intros [A B] [C D]. split; [congruence|]. intros i x H. destruct (D _ _ H) as (y & H2 & E1 & E2). destruct (B _ _ H2) as (z & H3 & E3 & E4). exists z. split; [auto|]. split; congruence. Qed.
Lemma links_list l h g : list_ok l -> links_same (l_heap l) h -> list_ok (mkLS (l_table l) h (l_list l) g).
Proof. intros [A B] [C D]. unfold list_ok. cbn [l_list l_heap]. rewrite C. split; [auto|]. intros i x H. destruct (D _ _ H) as (y & H' & -> & ->). auto. Qed.
Lemma update_got_list e ibs t m rest l p l' p' : list_ok l -> update_library_got e ibs t m rest (l, p) = Ok (l', p') -> list_ok l'.
Proof.
  unfold update_library_got. intros L E. iba E as [l1 i]. apply track_list in B; [|auto]. ib E. destruct (negb a); [injection E as <- <-; auto|]. ib E. destruct (_ =? _); [injection E as <- <-; auto|].
  iba E as [heap prot]. ib E. iba E as [mem log]. injection E as <- <-. apply links_list; [auto|]. eapply links_trans; [|apply links_upd; auto].
  destruct (lb_writable a0); [injection B2 as <- _; split; eauto|]. ib B2. injection B2 as <- _. apply links_upd. auto.
Qed.
Lemma mic_list e st tr st' : list_ok (s_l st) -> mic e st tr st' -> list_ok (s_l st').
Proof.
  intros L M. destruct M; auto.
  - cbn [s_l set_l]. refine (prepare_ind e n list_ok _ _ _ [] _ _ _ eq_refl L H). intros. eapply track_list; eauto.
  - cbn [s_l set_p set_l]. refine (update_gots_ind e ibs t (fun l _ => list_ok l) _ _ _ [] _ _ _ _ eq_refl eq_refl L H). intros. eapply update_got_list; eauto.
Qed.
Lemma run_list e maps mem ops st rs : run e (init_state maps mem) ops = Ok (st, rs) -> list_ok (s_l st).
Proof.
  intros E. destruct (lift e maps mem (fun _ _ st => list_ok (s_l st))) with (ops := ops) (st := st) (rs := rs) as (_ & tr & L & _); auto.
  - split; [reflexivity|]. intros i x H. destruct i; discriminate H.
  - intros l o tr st0 st' r L G Es. destruct o; cbn in G; try tauto; cbn in Es; injection Es as <- _; exact L.
  - intros l tr st0 st' L _ [->|(_ & _ & A & B & _)] _; [auto|]. destruct L as [L1 L2]. split; [congruence|]. rewrite A. auto.
  - intros l tr st0 tr1 st' L _ _ M. eapply mic_list; eauto.
Qed.

Lemma rev_seq_S n : rev (seq 0 (S n)) = n :: rev (seq 0 n).
Proof. rewrite seq_S, rev_app_distr. reflexivity. Qed.
Lemma list_dll h k : (forall i x, nth_error h i = Some x -> lb_next x = pred_of i /\ lb_prev x = if Nat.ltb (S i) (length h) then Some (S i) else None) ->
  (k <= length h)%nat -> dll h (if Nat.ltb k (length h) then Some k else None) (pred_of k) (rev (seq 0 k)).
Proof.
  intros H. induction k as [|k IH]; intros L; [constructor|]. rewrite rev_seq_S. destruct (nth_error_lt_Some h k) as [x Hx]; [lia|]. destruct (H _ _ Hx) as [N Pv].
  cbn [pred_of]. econstructor; [exact Hx|exact Pv|]. rewrite N. assert (L' : (k <= length h)%nat) by lia. specialize (IH L'). rewrite (proj2 (Nat.ltb_lt k (length h))) in IH by lia. exact IH.
Qed.
Lemma run_dll e maps mem ops st rs : run e (init_state maps mem) ops = Ok (st, rs) ->
  dll (l_heap (s_l st)) None (l_list (s_l st)) (rev (seq 0 (length (l_heap (s_l st))))).
Proof.
  intros E. apply run_list in E. destruct E as [A B]. rewrite A. pose proof (list_dll _ (length (l_heap (s_l st))) B (le_n _)) as D. rewrite Nat.ltb_irrefl in D. exact D.
Qed.
