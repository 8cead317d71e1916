(** GOTCHA does not read the words it writes. *)
From Verif Require Import Base ListFacts HashModel HashProofs ElfModel ToolModel CoreModel SpecMemory.

(** two outcomes are the same fault or have related values *)
Definition orel {A B} (R : A -> B -> Prop) (o : outcome A) (o' : outcome B) : Prop :=
  match o, o' with Ok a, Ok b => R a b | Fault k, Fault k' => k = k' | _, _ => False end.
Lemma orel_bind {A B C D} (R : A -> B -> Prop) (Q : C -> D -> Prop) o o' k k' :
  orel R o o' -> (forall a b, R a b -> orel Q (k a) (k' b)) -> orel Q (bind o k) (bind o' k').
Proof. intros H K. destruct o, o'; cbn in *; try contradiction; auto. Qed.
Lemma orel_same {A C D} (Q : C -> D -> Prop) (o : outcome A) k k' :
  (forall a, orel Q (k a) (k' a)) -> orel Q (bind o k) (bind o k').
Proof. intros K. destruct o; cbn; auto. Qed.

Section Memory.
Context (Q : Z -> Z -> Z -> Prop) (Qr : forall x v, Q x v v).
Notation R := (same_but_memory Q).
Definition R2 {A} (x y : state * A) : Prop := R (fst x) (fst y) /\ snd x = snd y.
Definition agree (m m' : Z -> Z) : Prop := forall x, Q x (m x) (m' x).
(** two states written out *)
Inductive RV : state -> state -> Prop :=
  rv i m b l maps mem mem' log fl : agree mem mem' -> RV (mkSt i m b l (mkPS maps mem log fl)) (mkSt i m b l (mkPS maps mem' log fl)).
Lemma R_RV st st' : R st st' -> RV st st'.
Proof. destruct st as [i m b l [maps mem log fl]], st' as [i' m' b' l' [maps' mem' log' fl']]. intros [A B C D E F G H]. cbn [s_init s_main s_b s_l s_p p_maps p_log p_filter p_mem] in *. subst. constructor. exact H. Qed.
Lemma RV_R st st' : RV st st' -> R st st'.
Proof. intros [i m b l maps mem mem' log fl H]. constructor; auto. Qed.
Ltac rv H := apply R_RV in H; destruct H as [i m b l maps mem mem' log fl H]; cbn [s_init s_main s_b s_l s_p p_maps p_log p_filter p_mem set_b set_l set_p fst snd] in *.
Ltac fin := apply RV_R; constructor; assumption.

Definition good_rec (rec : wrap_fun) : Prop := forall st st' ubs t, R st st' -> orel R2 (rec st ubs t) (rec st' ubs t).

Lemma m_main e rec st st' n : good_rec rec -> R st st' -> orel R (wrap_main e rec st n) (wrap_main e rec st' n).
Proof.
  intros G H. unfold wrap_main. rewrite <- (sm_main _ _ _ H). destruct (_ && _); [|exact H].
  eapply orel_bind; [apply G; destruct H; constructor; auto|]. intros [s1 c1] [s1' c1'] [H1 _]. cbn [fst] in H1.
  eapply orel_bind; [apply G; exact H1|]. intros [s2 c2] [s2' c2'] [H2 _]. exact H2.
Qed.
Lemma m_rwo e rec st st' b : good_rec rec -> R st st' -> orel R2 (rewrite_wrapper_orders e rec st b) (rewrite_wrapper_orders e rec st' b).
Proof.
  intros G H. unfold rewrite_wrapper_orders. rewrite <- (sm_b _ _ _ H). apply orel_same. intros ib. apply orel_same. intros p. eapply orel_bind; [apply m_main; eauto|].
  intros s s' H1. rewrite <- (sm_b _ _ _ H1). apply orel_same. intros [bs x]. split; [|reflexivity]. cbn [fst]. destruct H1; constructor; auto.
Qed.
Lemma m_prepare e st st' b : R st st' -> orel R2 (prepare_symbol e st b) (prepare_symbol e st' b).
Proof.
  intros H. unfold prepare_symbol. rewrite <- (sm_b _ _ _ H), <- (sm_l _ _ _ H), <- (sm_maps _ _ _ H). apply orel_same. intros ib. apply orel_same. intros [l [a|]].
  - cbn [set_l s_b]. rewrite <- (sm_b _ _ _ H). apply orel_same. intros bs. split; [|reflexivity]. destruct H; constructor; auto.
  - split; [|reflexivity]. destruct H; constructor; auto.
Qed.
Lemma m_one e rec na b sp sp' : good_rec rec -> R2 sp sp' -> orel R2 (wrap_one e rec na b sp) (wrap_one e rec na b sp').
Proof.
  intros G [H E]. destruct sp as [st pr], sp' as [st' pr']. cbn [fst snd] in *. subst pr'. unfold wrap_one. eapply orel_bind; [apply m_rwo; eauto|]. intros [s1 x] [s1' x'] [H1 E1]. cbn [fst snd] in *. subst x'.
  rewrite <- (sm_b _ _ _ H1). apply orel_same. intros ib. eapply (orel_bind R2).
  - destruct (need_lookup x); [|split; auto]. eapply orel_bind; [apply m_prepare; eauto|]. intros [s2 fd] [s2' fd'] [H2 E2]. cbn [fst snd] in *. subst fd'. destruct fd; [split; auto|].
    rewrite <- (sm_b _ _ _ H2). apply orel_same. intros t. split; [|reflexivity]. destruct H2; constructor; auto.
  - intros [s2 p2] [s2' p2'] [H2 E2]. cbn [fst snd] in *. subst p2'. destruct (need_binding x); [|split; auto]. apply orel_same. intros t. apply orel_same. intros t'. split; auto.
Qed.
Lemma m_loop e rec na : good_rec rec -> forall n b sp sp', R2 sp sp' -> orel R2 (wrap_loop e rec na n b sp) (wrap_loop e rec na n b sp').
Proof. intros G. induction n as [|n IH]; intros b sp sp' H; cbn [wrap_loop]; [exact H|]. eapply orel_bind; [apply m_one; eauto|]. intros x y K. apply IH, K. Qed.

Definition RM (x y : (Z -> Z) * list pevent) : Prop := agree (fst x) (fst y) /\ snd x = snd y.
Lemma m_bindings ibs ad t : forall rels m m' log, agree m m' -> orel RM (update_lib_bindings ibs ad t rels m log) (update_lib_bindings ibs ad t rels m' log).
Proof.
  induction rels as [|[off n] r IH]; intros m m' log H; cbn [update_lib_bindings]; [split; auto|]. apply orel_same. intros [b|]; [|apply IH; auto]. apply orel_same. intros ib. apply IH.
  intros x. unfold fupd. destruct (x =? _); auto.
Qed.
Definition RL (x y : lstate * pstate) : Prop := fst x = fst y /\ p_maps (snd x) = p_maps (snd y) /\ p_log (snd x) = p_log (snd y) /\ p_filter (snd x) = p_filter (snd y) /\ agree (p_mem (snd x)) (p_mem (snd y)).
Lemma m_got e ibs t m rest lp lp' : RL lp lp' -> orel RL (update_library_got e ibs t m rest lp) (update_library_got e ibs t m rest lp').
Proof.
  destruct lp as [l [maps mem log fl]], lp' as [l' [maps' mem' log' fl']]. unfold RL. cbn [fst snd p_maps p_log p_filter p_mem]. intros (-> & -> & -> & -> & H). unfold update_library_got. cbn [p_maps p_log p_filter p_mem].
  apply orel_same. intros [l lib]. apply orel_same. intros acc. destruct (negb acc); [cbn; auto|]. apply orel_same. intros lb. destruct (lb_gen lb =? l_gen l); [cbn; auto|].
  apply orel_same. intros [heap lg]. apply orel_same. intros rels. eapply (orel_bind RM).
  - destruct rels as [rs|]; [apply m_bindings; exact H|split; auto].
  - intros [m1 lg1] [m2 lg2] [K E]. cbn [fst snd] in *. subst lg2. cbn. auto.
Qed.
Lemma m_gots e ibs t : forall maps lp lp', RL lp lp' -> orel RL (update_gots e ibs t maps lp) (update_gots e ibs t maps lp').
Proof. induction maps as [|m r IH]; intros lp lp' H; cbn [update_gots]; [exact H|]. eapply orel_bind; [apply m_got; exact H|]. intros a b K. apply IH, K. Qed.
Lemma m_all e t st st' : R st st' -> orel R (update_all_library_gots e t st) (update_all_library_gots e t st').
Proof.
  intros H. unfold update_all_library_gots. rewrite <- (sm_b _ _ _ H), <- (sm_maps _ _ _ H). eapply (orel_bind RL).
  - apply m_gots. unfold RL. cbn [fst snd]. destruct H; auto.
  - intros [l p] [l' p'] (E1 & E2 & E3 & E4 & E5). cbn [fst snd] in *. destruct H; constructor; auto.
Qed.
Lemma m_wrap_tool e rec st st' ubs t : good_rec rec -> R st st' -> orel R2 (wrap_tool e rec st ubs t) (wrap_tool e rec st' ubs t).
Proof.
  intros G H. rv H. unfold wrap_tool. cbn [s_init s_main s_b s_l s_p set_b set_l set_p]. apply orel_same. intros [ts i0]. cbn [s_init s_main s_b s_l s_p set_b set_l set_p].
  apply orel_same. intros [bs tbl]. apply orel_same. intros bt. eapply orel_bind; [apply m_loop; [exact G|]; split; [|reflexivity]; cbn [fst]; fin|].
  intros [s1 pr] [s1' pr'] [H1 E1]. cbn [fst snd] in *. subst pr'. eapply (orel_bind R).
  - destruct (pr_new pr) as [tb|]; [apply m_all; exact H1|exact H1].
  - intros s2 s2' H2. split; [exact H2|reflexivity].
Qed.
Lemma m_init e rec st st' : good_rec rec -> R st st' -> orel R (gotcha_init e rec st) (gotcha_init e rec st').
Proof.
  intros G H. unfold gotcha_init. rewrite <- (sm_init _ _ _ H). destruct (s_init st); [exact H|]. eapply (orel_bind R).
  - rv H. unfold setup_hash_tables. cbn [s_init s_main s_b s_l s_p set_b set_l set_p]. apply orel_same. intros lt. apply orel_same. intros ft. apply orel_same. intros nt. fin.
  - intros s1 s1' H1. eapply orel_bind; [apply G; exact H1|]. intros [s2 c] [s2' c'] [H2 _]. exact H2.
Qed.
Lemma m_wrap e : forall n, good_rec (wrap_n e n).
Proof.
  induction n as [|n IH]; intros st st' ubs t H; [reflexivity|]. cbn [wrap_n]. unfold wrap_body. eapply orel_bind; [apply m_init; [exact IH|exact H]|]. intros s s' K. apply m_wrap_tool; [exact IH|exact K].
Qed.
Lemma m_per e k x st st' : R st st' -> orel R2 (per_binding e k x st) (per_binding e k x st').
Proof.
  intros H. unfold per_binding. destruct k as [k|]; [|reflexivity]. destruct x as [b|]; [|reflexivity]. rewrite <- (sm_b _ _ _ H). apply orel_same. intros b'. eapply orel_bind; [apply m_prepare; exact H|].
  intros [s1 fd] [s1' fd'] [H1 E1]. cbn [fst snd] in *. subst fd'. destruct fd; [|split; auto]. rewrite <- (sm_b _ _ _ H1). apply orel_same. intros [t y]. split; [|reflexivity]. destruct H1; constructor; auto.
Qed.
Lemma m_finish e st st' : R st st' -> orel R (dlopen_finish e st) (dlopen_finish e st').
Proof.
  intros H. unfold dlopen_finish, foreach_hash_entry. eapply (orel_bind R2).
  - rewrite <- (sm_b _ _ _ H). generalize (length (ht_table (b_nf (s_b st)))) (ht_head (b_nf (s_b st))). intros n. revert st st' H.
    induction n as [|n IH]; intros st st' H [i|]; cbn [foreach_loop]; [reflexivity|split; auto| |split; auto]. rewrite <- (sm_b _ _ _ H). destruct (nth_error _ i) as [x|]; [|reflexivity].
    eapply orel_bind; [apply m_per; exact H|]. intros [s1 c] [s1' c'] [H1 E1]. cbn [fst snd] in *. subst c'. destruct (negb _); [split; auto|]. rewrite <- (sm_b _ _ _ H1). destruct (nth_error _ i); [apply IH, H1|reflexivity].
  - intros [s1 c] [s1' c'] [H1 _]. cbn [fst] in H1. rewrite <- (sm_b _ _ _ H1). apply m_all, H1.
Qed.
Lemma m_step e st st' o o' : R st st' -> same_load Q o o' -> orel R2 (step e st o) (step e st' o').
Proof.
  intros H L. destruct o as [ubs t|t v|t|g|libs mm| |keep mm]; try (cbn [same_load] in L; subst o'); cbn [step].
  - unfold gotcha_wrap. eapply orel_bind; [apply m_wrap; exact H|]. intros [s c] [s' c'] [K E]. cbn [fst snd] in *. subst c'. split; auto.
  - unfold gotcha_set_priority, api_init. eapply (orel_bind R2).
    + eapply orel_bind; [apply m_init; [apply m_wrap|exact H]|]. intros s s' K. rewrite <- (sm_b _ _ _ K). apply orel_same. intros ts. split; [|reflexivity]. destruct K; constructor; auto.
    + intros [s c] [s' c'] [K E]. cbn [fst snd] in *. subst c'. split; auto.
  - unfold gotcha_get_priority, api_init. eapply (orel_bind R2).
    + eapply orel_bind; [apply m_init; [apply m_wrap|exact H]|]. intros s s' K. rewrite <- (sm_b _ _ _ K). apply orel_same. intros x. split; auto.
    + intros [s [c v]] [s' c'] [K E]. cbn [fst snd] in *. subst c'. split; auto.
  - split; [|reflexivity]. destruct H; constructor; auto.
  - destruct o'; try discriminate L. destruct L as [<- L]. cbn [step]. split; [|reflexivity]. destruct H; constructor; cbn; auto. congruence.
  - rewrite <- (sm_init _ _ _ H). destruct (s_init st); [|split; auto]. eapply orel_bind; [apply m_finish; exact H|]. intros s s' K. split; auto.
  - destruct o'; try discriminate L. destruct L as [<- L]. cbn [step]. split; [|reflexivity]. destruct H; constructor; cbn; auto. congruence.
Qed.
Lemma m_run e ops ops' : Forall2 (same_load Q) ops ops' -> forall st st', R st st' -> orel R2 (run e st ops) (run e st' ops').
Proof.
  induction 1 as [|o o' l l' L _ IH]; intros st st' H; cbn [run]; [split; auto|]. eapply orel_bind; [apply m_step; eauto|]. intros [s x] [s' x'] [K E]. cbn [fst snd] in *. subst x'.
  eapply orel_bind; [apply IH; exact K|]. intros [s2 xs] [s2' xs'] [K2 E2]. cbn [fst snd] in *. subst. split; auto.
Qed.
End Memory.
