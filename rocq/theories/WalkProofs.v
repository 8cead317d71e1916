(** Walks through a table that run alongside additions. *)
From Verif Require Import Base ListFacts HashModel HashProofs SpecHash HashTrace HashMoments SpecMoments MomentProofs RaceCores RaceModel SpecRace WalkModel.
From Coq Require Import Permutation.

Section Walk.
Context {K D : Type}.
Notation tbl := (htable K D).
(** the entries from a link on: where they are and what they hold *)
Inductive chain (u : tbl) : option nat -> list nat -> list (K * D) -> Prop :=
| ch_nil : chain u None [] []
| ch_cons : forall j e I k d L, nth_error (ht_table u) j = Some e -> he_key e = Some k -> he_data e = Some d -> chain u (he_next e) I L -> chain u (Some j) (j :: I) ((k, d) :: L).
Lemma chain_table u u' o I L : ht_table u' = ht_table u -> chain u o I L -> chain u' o I L.
Proof. intros E. induction 1; [constructor|]. econstructor; eauto. rewrite E. assumption. Qed.
Lemma chain_inv hf cmp (t : tbl) l c : ht_inv hf cmp t l c -> chain t (ht_head t) l c.
Proof.
  intros H. rewrite (inv_head _ _ _ _ _ H). pose proof (inv_links _ _ _ _ _ H) as A. pose proof (inv_cont _ _ _ _ _ H) as B. clear H. revert A. generalize (@None nat). induction B as [|i [k d] l c Hh B IH]; intros p A; [constructor|].
  cbn [linked hd_error] in *. destruct A as (e & He & _ & Hn & A). destruct Hh as (e' & He' & _ & Hk & Hd). rewrite He in He'. injection He' as <-. econstructor; [exact He|exact Hk|exact Hd|]. rewrite Hn. eapply IH; exact A.
Qed.
(** stores that do not change the key, the data or the link of certain entries *)
Definition spares (I : list nat) (s : hstore K D) : Prop :=
  match s with SKey i _ | SData i _ | SHash i _ | SStatus i _ | SNext i _ => ~ In i I | SPrev _ _ | SHead _ | SCount _ => True | _ => False end.
Lemma spares_incl I I' s : incl I' I -> spares I s -> spares I' s.
Proof. destruct s; cbn [spares]; auto. Qed.
Lemma chain_store u o I L s : spares I s -> chain u o I L -> chain (happly u s) o I L.
Proof.
  intros Sp. induction 1 as [|j e I k d L He Hk Hd C IH]; [constructor|]. assert (Sp' : spares I s) by (eapply spares_incl; [|exact Sp]; apply incl_tl, incl_refl).
  assert (X : exists e', nth_error (ht_table (happly u s)) j = Some e' /\ he_key e' = he_key e /\ he_data e' = he_data e /\ he_next e' = he_next e).
  { destruct s as [i v|i v|i v|i v|i v|i v| | | | | |]; cbn [spares] in Sp; try (exact (False_ind _ Sp)); cbn [happly set_arr ht_table]; [| | | | | |exists e; auto|exists e; auto].
    all: rewrite nth_error_upd; destruct (Nat.eqb_spec i j) as [->|Ne]; [|exists e; auto]; rewrite He; eexists; cbn [option_map]; split; [reflexivity|]; try (destruct Sp; left; reflexivity); auto. }
  destruct X as (e' & He' & Ek & Ed & En). econstructor; [exact He'|congruence|congruence|]. rewrite En. auto.
Qed.

(** stores of an addition before the one to the head *)
Definition near (y : nat) (s : hstore K D) : Prop :=
  match s with SKey i _ | SData i _ | SHash i _ | SStatus i _ | SNext i _ => i = y | SPrev _ _ => True | _ => False end.
Lemma near_spares y I s : near y s -> ~ In y I -> spares I s.
Proof. destruct s; cbn [near spares]; intros N H; try contradiction N; auto; rewrite N; exact H. Qed.
Lemma near_head y l : Forall (near y) l -> forall u, ht_head (happlys l u) = ht_head u.
Proof. induction 1 as [|s l N _ IH]; intros u; [reflexivity|]. change (happlys (s :: l) u) with (happlys l (happly u s)). rewrite IH. destruct s; try contradiction N; reflexivity. Qed.
Lemma near_chain y l o I L : Forall (near y) l -> ~ In y I -> forall u, chain u o I L -> chain (happlys l u) o I L.
Proof. intros F Ny. induction F as [|s l N _ IH]; intros u C; [exact C|]. change (happlys (s :: l) u) with (happlys l (happly u s)). apply IH. apply chain_store; [eapply near_spares; eauto|exact C]. Qed.

Lemma add_form hf cmp (t : tbl) l c k d : ht_inv hf cmp t l c -> ht_count t <= ht_size t / 2 ->
  exists y A n, add_stores t k d = Ok (A ++ [SHead (Some y); SCount n]) /\ Forall (near y) A /\ ~ In y l /\
    ht_inv hf cmp (happlys (A ++ [SHead (Some y); SCount n]) t) (y :: l) ((k, d) :: c) /\ ht_size (happlys (A ++ [SHead (Some y); SCount n]) t) = ht_size t.
Proof.
  intros H Load. pose proof (inv_pos _ _ _ _ _ H) as Hpos. destruct (insert_spec t l c k d H Load) as (t' & y & Ei & It & Sz). pose proof (insert_stores_ok t k d (hf k)) as S.
  assert (Ea : forall s, insert_stores t k d (hf k) = Ok s -> add_stores t k d = Ok s).
  { intros s E. unfold add_stores. rewrite grow_size_ok by lia. cbn [bind]. rewrite Z.eqb_refl. cbn [bind]. rewrite (inv_hf _ _ _ _ _ H), E. reflexivity. }
  destruct (insert_stores t k d (hf k)) as [s|] eqn:Es; [|congruence]. destruct S as (y' & S). rewrite Ei in S. injection S as -> <-. specialize (Ea s eq_refl). rewrite Ea.
  unfold insert_stores in Es. destruct (ht_size t =? 0); [discriminate Es|]. destruct (insert_probe _ _ _ _ _) as [[fr y1]|] eqn:Ep; cbn [bind] in Es; [|discriminate Es].
  assert (Ny : ~ In y l) by (pose proof (inv_nodup _ _ _ _ _ It) as ND; inversion ND; assumption).
  set (Z1 := (if fr then [SKey y1 (Some k); SData y1 (Some d); SHash y1 (hf k); SStatus y1 INUSE] else []) ++ [SNext y1 (ht_head t); SPrev y1 None] ++ (match ht_head t with Some h => [SPrev h (Some y1)] | None => [] end)) in *.
  assert (Eq : s = Z1 ++ [SHead (Some y1); SCount (ht_count t + 1)]) by (injection Es as <-; subst Z1; rewrite <- !app_assoc; reflexivity).
  assert (Hy : y1 = y). { pose proof (inv_head _ _ _ _ _ It) as Hh. rewrite Eq, happlys_app in Hh. cbn in Hh. congruence. }
  exists y, Z1, (ht_count t + 1). rewrite Hy in Eq. split; [congruence|]. split; [|split; [exact Ny|rewrite <- Eq; auto]]. subst Z1. rewrite Hy. apply Forall_app. split; [destruct fr; repeat constructor|]. destruct (ht_head t); repeat constructor.
Qed.

(** *** the writer *)
Section Fix.
Context (hf : K -> Z) (cmp : K -> K -> Z) (new : list (K * D)) (c0 : list (K * D)) (N : Z).
Context (HG : Z.of_nat (length c0) + Z.of_nat (length new) <= N / 2 + 1).
Notation adds := (map (fun p : K * D => HAdd (fst p) (snd p))).
Definition cont (i : nat) : list (K * D) := rev (firstn i new) ++ c0.
(** the table with [i] additions made or, between the store to the head and the end, nearly made; its entries *)
Inductive phase (w : wstate K D) : nat -> list nat -> Prop :=
| ph_idle : forall i I, w_pend w = [] -> w_todo w = adds (skipn i new) -> (i <= length new)%nat -> ht_size (w_table w) = N -> ht_inv hf cmp (w_table w) I (cont i) -> phase w i I
| ph_early : forall i I t A1 A2 y n p r, w_pend w = A2 ++ [SHead (Some y); SCount n] -> w_table w = happlys A1 t -> Forall (near y) (A1 ++ A2) -> ~ In y I -> skipn i new = p :: r -> w_todo w = adds r -> ht_size t = N ->
    ht_inv hf cmp t I (cont i) -> ht_size (happlys (w_pend w) (w_table w)) = N -> ht_inv hf cmp (happlys (w_pend w) (w_table w)) (y :: I) (cont (S i)) -> phase w i I
| ph_late : forall i I y n p r, w_pend w = [SCount n] -> skipn i new = p :: r -> w_todo w = adds r -> ht_head (w_table w) = Some y -> ht_size (happlys (w_pend w) (w_table w)) = N ->
    ht_inv hf cmp (happlys (w_pend w) (w_table w)) (y :: I) (cont (S i)) -> phase w (S i) (y :: I).
Lemma skip_cons i p r : skipn i new = p :: r -> (i < length new)%nat /\ skipn (S i) new = r /\ cont (S i) = p :: cont i.
Proof.
  intros E. assert (Lt : (i < length new)%nat) by (pose proof (skipn_length i new) as L; rewrite E in L; cbn in L; lia). split; [exact Lt|].
  assert (X : firstn (S i) new = firstn i new ++ [p] /\ skipn (S i) new = r).
  { unfold cont in *. clear HG. revert i E Lt. induction new as [|a q IH]; intros i E Lt; [cbn in Lt; lia|]. destruct i as [|i]; [cbn in E; injection E as -> ->; auto|]. cbn [length skipn] in *. destruct (IH i E ltac:(lia)) as [A B]. split; [cbn [firstn app]; rewrite <- A; reflexivity|exact B]. }
  destruct X as [X ->]. split; [reflexivity|]. unfold cont. rewrite X, rev_app_distr. reflexivity.
Qed.
Lemma cont_length i : (i <= length new)%nat -> length (cont i) = (length c0 + i)%nat.
Proof. intros L. unfold cont. rewrite app_length, rev_length, firstn_length_le by exact L. lia. Qed.
Lemma phase_chain w i I : phase w i I -> chain (w_table w) (ht_head (w_table w)) I (cont i) /\ (i <= length new)%nat.
Proof.
  intros [i0 I0 A B L Sz H|i0 I0 t A1 A2 y n p r A B F Ny E T Sz H Sz2 H2|i0 I0 y n p r A E T Hh Sz H].
  - split; [eapply chain_inv; exact H|exact L].
  - destruct (skip_cons _ _ _ E) as (Lt & _). split; [|lia]. rewrite B. apply Forall_app in F as [F1 _]. rewrite (near_head _ _ F1). eapply near_chain; eauto. eapply chain_inv; exact H.
  - destruct (skip_cons _ _ _ E) as (Lt & _). split; [|lia]. pose proof (chain_inv _ _ _ _ _ H) as C. rewrite (inv_head _ _ _ _ _ H) in C. cbn [hd_error] in C. rewrite Hh. eapply chain_table; [|exact C]. rewrite A. reflexivity.
Qed.
Lemma phase_counts w i I : phase w i I -> (finished (adds new) w <= i <= begun (adds new) w)%nat.
Proof.
  intros [i0 I0 A B L Sz H|i0 I0 t A1 A2 y n p r A B F Ny E T Sz H Sz2 H2|i0 I0 y n p r A E T Hh Sz H]; unfold finished, begun; rewrite A.
  - rewrite B, !map_length, skipn_length. lia.
  - destruct (skip_cons _ _ _ E) as (Lt & Sk & _). rewrite T, !map_length, <- Sk, skipn_length. destruct (A2 ++ [SHead (Some y); SCount n]) eqn:X; [destruct A2; discriminate X|]. lia.
  - destruct (skip_cons _ _ _ E) as (Lt & Sk & _). rewrite T, !map_length, <- Sk, skipn_length. lia.
Qed.
Lemma phase_step w i I : phase w i I -> exists w' i' I', wstep w = Ok w' /\ phase w' i' I' /\ (i <= i')%nat /\ incl I I' /\ (begun (adds new) w <= begun (adds new) w')%nat /\
  (forall o I0 L0, incl I0 I -> chain (w_table w) o I0 L0 -> chain (w_table w') o I0 L0).
Proof.
  intros [i0 I0 A B L Sz H|i0 I0 t A1 A2 y n p r A B F Ny E T Sz H Sz2 H2|i0 I0 y n p r A E T Hh Sz H]; destruct w as [u pd td]; cbn [w_table w_pend w_todo] in *; unfold wstep; cbn [w_table w_pend w_todo].
  - subst pd. destruct (skipn i0 new) as [|[k d] r] eqn:E; cbn [map] in B; subst td.
    + exists (mkW u [] []), i0, I0. split; [reflexivity|]. split; [apply ph_idle; auto; cbn [w_todo]; rewrite E; reflexivity|]. split; [lia|]. split; [apply incl_refl|]. auto.
    + destruct (skip_cons _ _ _ E) as (Lt & Sk & Ct). cbn [fst snd op_stores]. assert (Load : ht_count u <= ht_size u / 2) by (rewrite (inv_count_c H), (cont_length i0 L), Sz; lia).
      destruct (add_form hf cmp u I0 (cont i0) k d H Load) as (y & Al & n & Es & F & Ny & H2 & S2). rewrite Es. cbn [bind]. eexists. exists i0, I0. split; [reflexivity|]. split.
      * apply (ph_early _ i0 I0 u [] Al y n (k, d) r); auto; cbn [w_table w_pend]; [congruence|rewrite Ct; exact H2].
      * split; [lia|]. split; [apply incl_refl|]. split; [unfold begun; cbn [w_todo length]; lia|]. auto.
  - destruct A2 as [|s A2]; cbn [app] in A; subst pd.
    + (* the store to the head *) eexists. exists (S i0), (y :: I0). split; [reflexivity|]. split; [eapply ph_late; cbn [w_table w_pend w_todo]; eauto|]. split; [lia|]. split; [apply incl_tl, incl_refl|]. split; [unfold begun; cbn [w_todo]; lia|]. intros o I1 L1 Hi C. eapply chain_store; [exact Logic.I|exact C].
    + eexists. exists i0, I0. split; [reflexivity|]. split.
      * eapply (ph_early _ i0 I0 t (A1 ++ [s]) A2 y n); cbn [w_table w_pend w_todo]; eauto; [rewrite happlys_app, B; reflexivity|rewrite <- app_assoc; exact F].
      * split; [lia|]. split; [apply incl_refl|]. split; [unfold begun; cbn [w_todo]; lia|]. intros o I1 L1 Hi C. eapply chain_store; [|exact C]. eapply spares_incl; [exact Hi|]. apply Forall_app in F as [_ F]. inversion F; subst. eapply near_spares; eauto.
  - subst pd. destruct (skip_cons _ _ _ E) as (Lt & Sk & _). eexists. exists (S i0), (y :: I0). split; [reflexivity|]. split; [apply ph_idle; cbn [w_table w_pend w_todo]; auto; congruence|]. split; [lia|]. split; [apply incl_refl|]. split; [unfold begun; cbn [w_todo]; lia|].
    intros o I1 L1 Hi C. eapply chain_store; [exact Logic.I|exact C].
Qed.

(** *** the walk *)
Definition given (l : list (K * D)) : list (option K * option D) := map (fun p => (Some (fst p), Some (snd p))) l.
Context (i0 : nat).
(** [i] additions are made now, the entries lie at [I]; [q] reads are made *)
Definition finv (u : tbl) (i : nat) (I : list nat) (q : nat) (s : fpc K * list (option K * option D)) : Prop :=
  match fst s with
  | FStart => snd s = [] /\ q = O
  | FKey j => exists x old I0 L, (i0 <= x <= i)%nat /\ chain u (Some j) I0 L /\ incl I0 I /\ snd s = given old /\ old ++ L = cont x /\ q = (1 + 3 * length old)%nat
  | FData j k => exists x old I0 k0 d0 L, (i0 <= x <= i)%nat /\ chain u (Some j) I0 ((k0, d0) :: L) /\ k = Some k0 /\ incl I0 I /\ snd s = given old /\ old ++ (k0, d0) :: L = cont x /\ q = (2 + 3 * length old)%nat
  | FNext j => exists x old I0 k0 d0 L, (i0 <= x <= i)%nat /\ chain u (Some j) I0 ((k0, d0) :: L) /\ incl I0 I /\ snd s = given (old ++ [(k0, d0)]) /\ old ++ (k0, d0) :: L = cont x /\ q = (3 + 3 * length old)%nat
  | FDone => exists x, (i0 <= x <= i)%nat /\ snd s = given (cont x)
  end.
Lemma finv_mono u u' i i' I I' q s : (i <= i')%nat -> incl I I' -> (forall o I0 L0, incl I0 I -> chain u o I0 L0 -> chain u' o I0 L0) -> finv u i I q s -> finv u' i' I' q s.
Proof.
  intros Li In Ch. unfold finv. destruct (fst s); auto.
  - intros (x & old & I0 & L & A & C & J & R). exists x, old, I0, L. split; [lia|]. split; [auto|]. split; [eapply incl_tran; eauto|exact R].
  - intros (x & old & I0 & k0 & d0 & L & A & C & Kk & J & R). exists x, old, I0, k0, d0, L. split; [lia|]. split; [auto|]. split; [exact Kk|]. split; [eapply incl_tran; eauto|exact R].
  - intros (x & old & I0 & k0 & d0 & L & A & C & J & R). exists x, old, I0, k0, d0, L. split; [lia|]. split; [auto|]. split; [eapply incl_tran; eauto|exact R].
  - intros (x & A & R). exists x. split; [lia|exact R].
Qed.
Lemma at_link_inv u i I q x old o I0 L : (i0 <= x <= i)%nat -> chain u o I0 L -> incl I0 I -> old ++ L = cont x -> q = (1 + 3 * length old)%nat -> finv u i I q (at_link o, given old).
Proof.
  intros A C J E Q. destruct o as [j|]; cbn [at_link]; unfold finv; cbn [fst snd].
  - exists x, old, I0, L. auto 8.
  - inversion C; subst. rewrite app_nil_r in E. exists x. rewrite <- E. auto.
Qed.
Lemma fstep_ok w i I q s : phase w i I -> (i0 <= i)%nat -> finv (w_table w) i I q s -> exists s', fstep (w_table w) s = Ok s' /\ finv (w_table w) i I (S q) s'.
Proof.
  intros PH Li F. destruct (phase_chain _ _ _ PH) as [Ch _]. set (u := w_table w) in *. clearbody u. clear PH. destruct s as [pc out]. unfold finv in F. cbn [fst snd] in F. destruct pc; cbn [fstep].
  - destruct F as [-> ->]. eexists. split; [reflexivity|]. apply (at_link_inv u i I 1 i [] _ I (cont i)); auto. apply incl_refl.
  - destruct F as (x & old & I0 & L & A & C & J & -> & E & Q). inversion C as [|j e I1 k d L1 He Hk Hd C1]; subst. rewrite He. eexists. split; [reflexivity|]. unfold finv. cbn [fst snd]. exists x, old, (i1 :: I1), k, d, L1. repeat split; auto; lia.
  - destruct F as (x & old & I0 & k0 & d0 & L & A & C & -> & J & -> & E & Q). pose proof C as C'. inversion C as [|j e I1 k d L1 He Hk Hd C1]; subst. rewrite He. eexists. split; [reflexivity|]. unfold finv. cbn [fst snd]. exists x, old, (i1 :: I1), k0, d0, L. repeat split; auto; try lia. unfold given. rewrite map_app, Hd. reflexivity.
  - destruct F as (x & old & I0 & k0 & d0 & L & A & C & J & -> & E & Q). inversion C as [|j e I1 k d L1 He Hk Hd C1]; subst. rewrite He. eexists. split; [reflexivity|]. eapply (at_link_inv u i I _ x (old ++ [(k0, d0)])); eauto; [intros z Hz; apply J; right; exact Hz|rewrite <- app_assoc; exact E|rewrite app_length; cbn; lia].
  - eexists. split; [reflexivity|]. exact F.
Qed.
Lemma finv_done u i I q s : (i <= length new)%nat -> finv u i I q s -> (3 * (length c0 + length new) < q)%nat -> fst s = FDone.
Proof.
  intros Li F Q. unfold finv in F. destruct (fst s); [lia| | | |reflexivity]; exfalso.
  - destruct F as (x & old & I0 & L & A & C & _ & _ & E & ->). pose proof (cont_length x ltac:(lia)) as X. rewrite <- E, app_length in X. inversion C; subst. cbn [length] in X. lia.
  - destruct F as (x & old & I0 & k0 & d0 & L & A & C & _ & _ & _ & E & ->). pose proof (cont_length x ltac:(lia)) as X. rewrite <- E, app_length in X. cbn [length] in X. lia.
  - destruct F as (x & old & I0 & k0 & d0 & L & A & C & _ & _ & E & ->). pose proof (cont_length x ltac:(lia)) as X. rewrite <- E, app_length in X. cbn [length] in X. lia.
Qed.
Lemma walk_ok sched : forall w i I q s, phase w i I -> (i0 <= i)%nat -> finv (w_table w) i I q s ->
  exists w' i' I' s', walk sched w s = Ok (w', s') /\ phase w' i' I' /\ finv (w_table w') i' I' (q + reads sched) s'.
Proof.
  induction sched as [|x sched IH]; intros w i I q s PH Li F; cbn [walk].
  - exists w, i, I, s. cbn. rewrite Nat.add_0_r. auto.
  - destruct x.
    + destruct (phase_step _ _ _ PH) as (w1 & i1 & I1 & St & PH1 & L1 & J & _ & Ch). rewrite St. cbn [bind]. change (reads (true :: sched)) with (reads sched). apply (IH w1 i1 I1); auto; [lia|eapply finv_mono; eauto].
    + destruct (fstep_ok w i I q s PH Li F) as (s1 & St & F1). rewrite St. cbn [bind]. change (reads (false :: sched)) with (S (reads sched)). rewrite Nat.add_succ_r. apply (IH w i I (S q)); auto.
Qed.
End Fix.
End Walk.

Lemma walk_result K D hf cmp (t : htable K D) l c new before sched : ht_inv hf cmp t l c -> ht_count t + Z.of_nat (length new) <= ht_size t / 2 + 1 ->
  let todo := map (fun p => HAdd (fst p) (snd p)) new in
  exists w w' pc out, wsteps before (mkW t [] todo) = Ok w /\ walk sched w (FStart, []) = Ok (w', (pc, out)) /\
    (3 * (length c + length new) < reads sched -> pc = FDone)%nat /\
    (pc = FDone -> exists i, (finished todo w <= i <= begun todo w')%nat /\ out = given (rev (firstn i new) ++ c)).
Proof.
  intros H HG todo. assert (HG' : Z.of_nat (length c) + Z.of_nat (length new) <= ht_size t / 2 + 1) by (rewrite (inv_count_c H) in HG; exact HG).
  assert (WS : forall n w0 i I, phase hf cmp new c (ht_size t) w0 i I -> exists w i' I', wsteps n w0 = Ok w /\ phase hf cmp new c (ht_size t) w i' I').
  { clear -HG'. induction n as [|n IH]; intros w0 i I PH; cbn [wsteps]; [eauto|]. destruct (phase_step hf cmp new c (ht_size t) HG' _ _ _ PH) as (w1 & i1 & I1 & St & PH1 & _). rewrite St. cbn [bind]. eauto. }
  destruct (WS before (mkW t [] todo) O l) as (w & i & I & Ew & PH); [apply ph_idle; auto; cbn; lia|].
  destruct (walk_ok hf cmp new c (ht_size t) HG' i sched w i I O (FStart, []) PH (le_n i)) as (w' & i' & I' & [pc out] & Er & PH' & F); [split; reflexivity|]. exists w, w', pc, out. split; [exact Ew|]. split; [exact Er|].
  destruct (phase_chain _ _ _ _ _ _ _ _ PH') as [_ L']. pose proof (phase_counts _ _ _ _ _ _ _ _ PH) as C1. pose proof (phase_counts _ _ _ _ _ _ _ _ PH') as C2. split.
  - intros Q. exact (finv_done new c i _ _ _ _ _ L' F Q).
  - intros ->. unfold finv in F. cbn [fst snd] in F. destruct F as (x & Lx & ->). exists x. split; [fold todo in C1, C2; lia|reflexivity].
Qed.
(** the walk of a table at rest *)
Lemma chain_note {K D} (t : htable K D) cb : (forall k d acc, cb k d acc = Ok (acc ++ [(k, d)], 0)) ->
  forall l o c, chain t o l c -> forall fuel acc, (length l <= fuel)%nat -> foreach_loop fuel (fun _ => t) cb o acc = Ok (acc ++ given c, 0).
Proof.
  intros Hcb l o c C. induction C as [|j e I k d L He Hk Hd C IH]; intros fuel acc Hf; [destruct fuel; cbn; rewrite app_nil_r; reflexivity|]. cbn [length] in Hf. destruct fuel as [|fuel]; [lia|].
  cbn [foreach_loop]. rewrite He, Hcb. cbn [bind negb Z.eqb]. rewrite IH by lia. rewrite <- app_assoc, Hk, Hd. reflexivity.
Qed.
(** walking alone as far as a certain entry *)
Lemma chain_reach {K D} (w : wstate K D) i l1 l2 : forall o c acc, chain (w_table w) o (l1 ++ i :: l2) c -> exists acc', walk (repeat false (3 * length l1)) w (at_link o, acc) = Ok (w, (FKey i, acc ++ acc')).
Proof.
  induction l1 as [|j l1 IH]; intros o c acc C; cbn [app] in C; inversion C as [|j' e I k d L He Hk Hd C1]; subst.
  - exists []. rewrite app_nil_r. reflexivity.
  - destruct (IH _ _ (acc ++ [(Some k, Some d)]) C1) as (acc' & E). exists ((Some k, Some d) :: acc'). replace (3 * length (j :: l1))%nat with (S (S (S (3 * length l1)))) by (cbn [length]; lia).
    cbn [repeat walk at_link fstep]. rewrite He. cbn [bind fstep]. rewrite He. cbn [bind fstep]. rewrite He. cbn [bind]. rewrite Hk, Hd, E, <- app_assoc. reflexivity.
Qed.
Lemma note_inv {K D hf cmp} (t : htable K D) l c cb : ht_inv hf cmp t l c -> (forall k d acc, cb k d acc = Ok (acc ++ [(k, d)], 0)) -> foreach_hash_entry (fun _ => t) cb [] = Ok (given c, 0).
Proof.
  intros H Hcb. unfold foreach_hash_entry. rewrite (chain_note t cb Hcb l _ c (chain_inv _ _ _ _ _ H)); [reflexivity|].
  pose proof (inv_len _ _ _ _ _ H). pose proof (inv_pos _ _ _ _ _ H). pose proof (inv_load _ _ _ _ _ H). pose proof (inv_count _ _ _ _ _ H). pose proof (Z.div_mod (ht_size t) 2 ltac:(lia)). pose proof (Z.mod_pos_bound (ht_size t) 2 ltac:(lia)). lia.
Qed.
(** an entry that is cleared while the walk is at it *)
Lemma walk_cleared {K D hf cmp} (t : htable K D) l c k d rest : ht_inv hf cmp t l c -> lookup_hashtable t k = Ok (Some d) ->
  exists sched w pc out, walk sched (mkW t [] (HRemove k :: rest)) (FStart, []) = Ok (w, (pc, out)) /\ In (None, None) out.
Proof.
  intros H L. unfold lookup_hashtable in L. destruct (lookup_spec t l c k H) as [(i & e & k' & dt & Lk & He & Hs & _)|[Lk _]]; rewrite Lk in L; cbn [bind] in L; [|discriminate L].
  destruct (in_split _ _ (inv_inuse _ _ _ _ _ H i e He Hs)) as (l1 & l2 & El). subst l. set (w := mkW t [] (HRemove k :: rest)). pose proof (chain_inv _ _ _ _ _ H) as C.
  destruct (chain_reach w i l1 l2 (ht_head t) c [] C) as (acc & Er).
  exists ([false] ++ repeat false (3 * length l1) ++ [true; true; true; false; false]). 
  assert (Wa : forall a b s, walk (a ++ b) w s = (do ' (w1, s1) <- walk a w s; walk b w1 s1)).
  { clear. intros a b. generalize w. induction a as [|x a IH]; intros w0 s; cbn [app walk bind]; [reflexivity|]. destruct x; [destruct (wstep w0)|destruct (fstep (w_table w0) s)]; cbn [bind]; auto. }
  rewrite Wa. cbn [walk fstep w w_table bind]. fold w. rewrite Wa, Er. cbn [bind walk]. unfold wstep at 1. cbn [w w_pend w_todo w_table op_stores]. unfold remove_stores. rewrite Lk. cbn [bind]. rewrite He. cbn [bind app].
  unfold wstep at 1. cbn [w_pend w_todo w_table bind]. unfold wstep at 1. cbn [w_pend w_todo w_table bind fstep happly set_arr ht_table]. rewrite !nth_error_upd, Nat.eqb_refl, He. cbn [option_map bind fstep happly set_arr w_table ht_table]. rewrite ?nth_error_upd, ?Nat.eqb_refl, ?He. cbn [option_map bind he_key he_data set_key set_data].
  eexists _, _, _. split; [reflexivity|]. apply in_or_app. right. left. reflexivity.
Qed.
(** an addition that makes the table grow starts with emptying it *)
Lemma grow_form {K D hf cmp} (t : htable K D) l c k d : ht_inv hf cmp t l c -> ht_size t / 2 < ht_count t ->
  exists r, add_stores t k d = Ok ([SSize 0; SCount 0; SHashfunc None; SKeycmp None; STable []; SHead None] ++ r).
Proof.
  intros H Hg. destruct (addto_spec t l c k d H) as (ta & la & ca & A & _). pose proof (add_stores_ok t k d) as HS.
  unfold add_stores in *. destruct (grow_size _ _ _) as [ns|] eqn:G; cbn [bind] in *; [|congruence]. destruct (Z.eqb_spec ns (ht_size t)) as [X|X].
  { exfalso. pose proof (inv_pos _ _ _ _ _ H) as Hpos. pose proof (inv_load _ _ _ _ _ H) as Hload. assert (0 <= ht_size t / 2) by (apply Z.div_pos; lia).
    destruct (grow_size_spec (S (S (Z.to_nat (ht_count t)))) (ht_count t) (ht_size t)) as (ns' & G' & L & _); [lia|lia|lia|]. rewrite G in G'. injection G' as <-. subst ns. lia. }
  destruct (grow_hashtable t ns) as [tg|]; cbn [bind] in *; [|congruence]. destruct (ht_hashfunc tg) as [hf'|]; [|congruence]. destruct (insert_stores tg k d (hf' k)) as [li|]; cbn [bind] in *; [|congruence].
  eexists. unfold grow_stores. rewrite <- !app_assoc. reflexivity.
Qed.
