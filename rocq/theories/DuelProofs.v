(** Two additions to the same table at the same time. *)
From Verif Require Import Base ListFacts HashModel HashProofs SpecHash HashTrace HashMoments SpecMoments MomentProofs RaceModel WalkModel WalkProofs DuelModel.
From Coq Require Import Permutation.

Section Steps.
Context {K D : Type} (k : K) (d : D).
Notation tbl := (htable K D).
Lemma isteps_app a b (x : tbl * ipc) : isteps (a + b) k d x = (do y <- isteps a k d x; isteps b k d y).
Proof. revert x. induction a as [|a IH]; intros x; cbn [plus isteps bind]; [reflexivity|]. destruct (istep k d x); cbn [bind]; auto. Qed.
Lemma probe_run (u : tbl) v n s : n = Z.to_nat (ht_size u) -> forall fuel j, exists q,
  match insert_probe fuel (ht_table u) n j s with
  | Ok (free, i) => isteps q k d (u, IProbe v j s) = Ok (u, if free then IKey v i else IHead i)
  | Fault NoTermination => True
  | Fault f => isteps q k d (u, IProbe v j s) = Fault f
  end.
Proof.
  intros En. induction fuel as [|fuel IH]; intros j; [exists O; exact Logic.I|]. cbn [insert_probe]. destruct (nth_error (ht_table u) j) as [e|] eqn:He; [|exists 1%nat; cbn; rewrite He; reflexivity].
  destruct (he_status e) eqn:Se; [exists 1%nat; cbn; rewrite He, Se; reflexivity|exists 1%nat; cbn; rewrite He, Se; reflexivity|].
  cbn zeta. destruct (IH (if Nat.eqb (S j) n then O else S j)) as (q & Hq). destruct (Nat.eqb (if Nat.eqb (S j) n then O else S j) s) eqn:Es.
  - exists 1%nat. cbn [isteps istep]. rewrite He, Se, <- En, Es. reflexivity.
  - exists (S q). cbn [isteps istep]. rewrite He, Se, <- En, Es. cbn [bind]. exact Hq.
Qed.
Definition fill (v : Z) (i : nat) : list (hstore K D) := [SKey i (Some k); SData i (Some d); SHash i v; SStatus i INUSE].
Definition tie (u : tbl) (i : nat) : list (hstore K D) := [SNext i (ht_head u); SPrev i None] ++ (match ht_head u with Some h => [SPrev h (Some i)] | None => [] end) ++ [SHead (Some i); SCount (ht_count u + 1)].
Lemma fill_run u v i : isteps 4 k d (u, IKey v i) = Ok (happlys (fill v i) u, IHead i).
Proof. reflexivity. Qed.
Lemma tie_run (u : tbl) i : exists q, isteps q k d (u, IHead i) = Ok (happlys (tie u i) u, IDone).
Proof.
  unfold tie. destruct (ht_head u) as [h|] eqn:Hh.
  - exists 8%nat. cbn [isteps istep bind happly set_arr ht_head ht_count]. rewrite Hh. cbn [app happlys fold_left happly set_arr ht_head ht_count bind isteps istep]. reflexivity.
  - exists 7%nat. cbn [isteps istep bind happly set_arr ht_head ht_count]. rewrite Hh. cbn [app happlys fold_left happly set_arr ht_head ht_count bind isteps istep]. reflexivity.
Qed.
Lemma fill_head u v i : ht_head (happlys (fill v i) u) = ht_head u /\ ht_count (happlys (fill v i) u) = ht_count u.
Proof. split; reflexivity. Qed.
Lemma start_run (t : tbl) hf cmp l c : ht_inv hf cmp t l c -> ht_count t <= ht_size t / 2 -> forall u, ht_count u = ht_count t -> ht_size u = ht_size t -> ht_hashfunc u = ht_hashfunc t ->
  istep k d (u, IStart) = Ok (u, IProbe (hf k) (start t (hf k)) (start t (hf k))).
Proof.
  intros I Load u E1 E2 E3. pose proof (inv_pos _ _ _ _ _ I) as Hp. cbn [istep]. rewrite E1, E2, grow_size_ok by lia. cbn [bind]. rewrite Z.eqb_refl. cbn [bind]. rewrite E3, E2, (inv_hf _ _ _ _ _ I). destruct (Z.eqb_spec (ht_size t) 0); [lia|reflexivity].
Qed.
End Steps.

Lemma addto_run K D (t : htable K D) k d : addto_hashtable t k d <> Fault NoTermination ->
  exists q, isteps q k d (t, IStart) = match addto_hashtable t k d with Ok t' => Ok (t', IDone) | Fault f => Fault f end.
Proof.
  unfold addto_hashtable. destruct (grow_size _ _ _) as [ns|] eqn:G; cbn [bind]; [|intros _; exists 1%nat; cbn [isteps istep]; rewrite G; reflexivity].
  destruct (if ns =? ht_size t then Ok t else grow_hashtable t ns) as [u|] eqn:Gt; cbn [bind]; [|intros _; exists 1%nat; cbn [isteps istep]; rewrite G; cbn [bind]; rewrite Gt; reflexivity].
  destruct (ht_hashfunc u) as [hf|] eqn:Hh; [|intros _; exists 1%nat; cbn [isteps istep]; rewrite G; cbn [bind]; rewrite Gt; cbn [bind]; rewrite Hh; reflexivity].
  pose proof (insert_stores_ok u k d (hf k)) as S. unfold insert_stores in S. destruct (ht_size u =? 0) eqn:Z0.
  { unfold insert. rewrite Z0. cbn [bind]. intros _. exists 1%nat. cbn [isteps istep]. rewrite G. cbn [bind]. rewrite Gt. cbn [bind]. rewrite Hh, Z0. reflexivity. }
  set (j := Z.to_nat (u64 (hf k) mod ht_size u)) in *.
  assert (S1 : forall q, isteps (Datatypes.S q) k d (t, IStart) = isteps q k d (u, IProbe (hf k) j j)).
  { intros q. cbn [isteps istep]. rewrite G. cbn [bind]. rewrite Gt. cbn [bind]. rewrite Hh, Z0. reflexivity. }
  destruct (probe_run k d u (hf k) _ j eq_refl (Z.to_nat (ht_size u)) j) as (q & Hq).
  destruct (insert_probe _ (ht_table u) _ j j) as [[free i]|f] eqn:Ep; cbn [bind] in S.
  - destruct S as (i' & S). rewrite S. cbn [bind]. intros _. destruct free.
    + destruct (tie_run k d (happlys (fill k d (hf k) i) u) i) as (q2 & H2). exists (Datatypes.S (q + (4 + q2))). rewrite S1, isteps_app, Hq. cbn [bind]. rewrite isteps_app, fill_run. cbn [bind]. rewrite H2. unfold tie. destruct (fill_head k d u (hf k) i) as [-> ->]. rewrite <- happlys_app. reflexivity.
    + destruct (tie_run k d u i) as (q2 & H2). exists (Datatypes.S (q + q2)). rewrite S1, isteps_app, Hq. cbn [bind]. rewrite H2. reflexivity.
  - rewrite S. cbn [bind]. intros N. exists (Datatypes.S q). rewrite S1. destruct f; try exact Hq. congruence.
Qed.

(** *** both threads *)
Section Both.
Context {K D : Type} (a b : K * D).
Lemma duel_app s1 s2 : forall (u : htable K D) p q, duel a b (s1 ++ s2) u p q = (do ' (u1, p1, q1) <- duel a b s1 u p q; duel a b s2 u1 p1 q1).
Proof. induction s1 as [|x s1 IH]; intros u p q; cbn [app duel bind]; [reflexivity|]. destruct x; [destruct (istep (fst a) (snd a) (u, p)) as [[u1 p1]|]|destruct (istep (fst b) (snd b) (u, q)) as [[u1 q1]|]]; cbn [bind]; auto. Qed.
Lemma duel_one n : forall (u u' : htable K D) p p' q, isteps n (fst a) (snd a) (u, p) = Ok (u', p') -> duel a b (repeat true n) u p q = Ok (u', p', q).
Proof. induction n as [|n IH]; intros u u' p p' q E; cbn [isteps repeat duel] in *; [congruence|]. destruct (istep (fst a) (snd a) (u, p)) as [[u1 p1]|]; cbn [bind] in *; [|discriminate E]. auto. Qed.
Lemma duel_two n : forall (u u' : htable K D) p q q', isteps n (fst b) (snd b) (u, q) = Ok (u', q') -> duel a b (repeat false n) u p q = Ok (u', p, q').
Proof. induction n as [|n IH]; intros u u' p q q' E; cbn [isteps repeat duel] in *; [congruence|]. destruct (istep (fst b) (snd b) (u, q)) as [[u1 q1]|]; cbn [bind] in *; [|discriminate E]. auto. Qed.
End Both.

(** *** counting entries in use *)
Section Count.
Context {A : Type} (f : A -> bool) (g : A -> A).
Lemma filt_more : forall l i x, nth_error l i = Some x -> f x = false -> f (g x) = true -> length (filter f (upd l i g)) = S (length (filter f l)).
Proof.
  induction l as [|y l IH]; intros [|i] x E F G; try discriminate E; cbn in E |- *; [injection E as ->; rewrite F, G; reflexivity|]. destruct (f y); cbn; erewrite IH; eauto.
Qed.
Lemma filt_same : forall l i, (forall x, nth_error l i = Some x -> f (g x) = f x) -> length (filter f (upd l i g)) = length (filter f l).
Proof.
  induction l as [|y l IH]; intros [|i] H; cbn; auto; [rewrite (H y eq_refl); destruct (f y); reflexivity|]. destruct (f y); cbn; rewrite IH; auto.
Qed.
End Count.
Definition plain {K D} (s : hstore K D) : Prop := match s with SStatus _ _ | STable _ => False | _ => True end.
Lemma plain_inuse {K D} (s : hstore K D) u : plain s -> inuse_slots (happly u s) = inuse_slots u.
Proof. unfold inuse_slots. destruct s; cbn [plain happly set_arr ht_table]; intros P; try contradiction P; try reflexivity; f_equal; apply filt_same; reflexivity. Qed.
Lemma plains_inuse {K D} (l : list (hstore K D)) : Forall plain l -> forall u, inuse_slots (happlys l u) = inuse_slots u.
Proof. induction 1 as [|s l P _ IH]; intros u; [reflexivity|]. change (happlys (s :: l) u) with (happlys l (happly u s)). rewrite IH. apply plain_inuse. exact P. Qed.
Lemma tie_plain {K D} (u : htable K D) i : Forall plain (tie u i).
Proof. unfold tie. destruct (ht_head u); repeat constructor. Qed.
Lemma entry_store {K D} (u : htable K D) s i e : spares [i] s -> nth_error (ht_table u) i = Some e -> exists e', nth_error (ht_table (happly u s)) i = Some e' /\ he_key e' = he_key e /\ he_data e' = he_data e /\ he_status e' = he_status e.
Proof.
  intros Sp He. destruct s as [j v|j v|j v|j v|j v|j v| | | | | |]; cbn [spares] in Sp; try (exact (False_ind _ Sp)); cbn [happly set_arr ht_table]; [| | | | | |exists e; auto|exists e; auto].
  all: rewrite nth_error_upd; destruct (Nat.eqb_spec j i) as [->|Ne]; [|exists e; auto]; try (destruct Sp; left; reflexivity). rewrite He. eexists. split; [reflexivity|]. auto.
Qed.
Lemma entry_stores {K D} l i : Forall (spares [i]) l -> forall (u : htable K D) e, nth_error (ht_table u) i = Some e -> exists e', nth_error (ht_table (happlys l u)) i = Some e' /\ he_key e' = he_key e /\ he_data e' = he_data e /\ he_status e' = he_status e.
Proof.
  induction 1 as [|s l P _ IH]; intros u e He; [exists e; auto|]. change (happlys (s :: l) u) with (happlys l (happly u s)). destruct (entry_store u s i e P He) as (e1 & H1 & A & B & C). destruct (IH _ _ H1) as (e2 & H2 & A2 & B2 & C2). exists e2. repeat split; congruence.
Qed.
Lemma chain_stores {K D} I l : Forall (spares I) l -> forall (u : htable K D) o L, chain u o I L -> chain (happlys l u) o I L.
Proof. induction 1 as [|s l P _ IH]; intros u o L C; [exact C|]. change (happlys (s :: l) u) with (happlys l (happly u s)). apply IH. apply chain_store; assumption. Qed.
Lemma len_stores {K D} I l : Forall (spares I) l -> forall u : htable K D, length (ht_table (happlys l u)) = length (ht_table u).
Proof.
  induction 1 as [|s l P _ IH]; intros u; [reflexivity|]. change (happlys (s :: l) u) with (happlys l (happly u s)). rewrite IH. destruct s; cbn [spares] in P; try (exact (False_ind _ P)); cbn [happly set_arr ht_table]; rewrite ?upd_length; reflexivity.
Qed.
Lemma fill_spares {K D} (k : K) (d : D) v i I : ~ In i I -> Forall (spares I) (fill k d v i).
Proof. intros N. repeat constructor; exact N. Qed.
Lemma tie_spares {K D} (u : htable K D) i I : ~ In i I -> Forall (spares I) (tie u i).
Proof. intros N. unfold tie. constructor; [exact N|]. constructor; [exact Logic.I|]. destruct (ht_head u); repeat constructor. Qed.
Lemma fill_inuse {K D} (u : htable K D) k d v i e : nth_error (ht_table u) i = Some e -> he_status e <> INUSE -> inuse_slots (happlys (fill k d v i) u) = inuse_slots u + 1.
Proof.
  intros He Se. unfold fill. change [SKey i (Some k); SData i (Some d); SHash i v; SStatus i INUSE] with ([SKey i (Some k); SData i (Some d); SHash i v] ++ [SStatus i INUSE]). rewrite happlys_app.
  set (u1 := happlys [SKey i (Some k); SData i (Some d); SHash i v] u). assert (Eu : inuse_slots u1 = inuse_slots u) by (apply plains_inuse; repeat constructor).
  assert (X : exists e1, nth_error (ht_table u1) i = Some e1 /\ he_status e1 = he_status e) by (subst u1; cbn [happlys fold_left happly set_arr ht_table]; rewrite !nth_error_upd, Nat.eqb_refl, He; eexists; split; reflexivity).
  destruct X as (e1 & H1 & S1). rewrite <- Eu. unfold inuse_slots. cbn [happlys fold_left happly set_arr ht_table]. rewrite (filt_more _ _ _ _ e1 H1); [lia| |reflexivity]. rewrite S1. destruct (he_status e); congruence.
Qed.
Lemma fill_again {K D} (u : htable K D) k d v i e : nth_error (ht_table u) i = Some e -> he_status e = INUSE -> inuse_slots (happlys (fill k d v i) u) = inuse_slots u.
Proof.
  intros He Se. unfold fill. change [SKey i (Some k); SData i (Some d); SHash i v; SStatus i INUSE] with ([SKey i (Some k); SData i (Some d); SHash i v] ++ [SStatus i INUSE]). rewrite happlys_app.
  set (u1 := happlys [SKey i (Some k); SData i (Some d); SHash i v] u). assert (Eu : inuse_slots u1 = inuse_slots u) by (apply plains_inuse; repeat constructor).
  assert (X : exists e1, nth_error (ht_table u1) i = Some e1 /\ he_status e1 = he_status e) by (subst u1; cbn [happlys fold_left happly set_arr ht_table]; rewrite !nth_error_upd, Nat.eqb_refl, He; eexists; split; reflexivity).
  destruct X as (e1 & H1 & S1). rewrite <- Eu. unfold inuse_slots. cbn [happlys fold_left happly set_arr ht_table]. f_equal. apply filt_same. intros x Hx. rewrite H1 in Hx. injection Hx as <-. rewrite S1, Se. reflexivity.
Qed.

(** *** as far as the choice of the slot *)
Lemma probe_free {K D} (u : htable K D) s : (s < length (ht_table u))%nat -> ht_size u = Z.of_nat (length (ht_table u)) -> (exists i e, nth_error (ht_table u) i = Some e /\ he_status e <> INUSE) ->
  exists y e, insert_probe (Z.to_nat (ht_size u)) (ht_table u) (Z.to_nat (ht_size u)) s s = Ok (true, y) /\ nth_error (ht_table u) y = Some e /\ he_status e <> INUSE.
Proof.
  intros Hs Sz (i & e & He & Se). rewrite Sz, Nat2Z.id. destruct (insert_probe_spec (ht_table u) s Hs (length (ht_table u)) 0) as [(d0 & e0 & _ & P & H0 & S0 & _)|H]; try lia; [|destruct Se; eapply H; exact He].
  rewrite slot_0 in P by lia. eauto.
Qed.
Lemma reach_slot {K D hf cmp} (t : htable K D) l c k d : ht_inv hf cmp t l c -> ht_count t <= ht_size t / 2 ->
  exists q y e, isteps q k d (t, IStart) = Ok (t, IKey (hf k) y) /\ insert_probe (Z.to_nat (ht_size t)) (ht_table t) (Z.to_nat (ht_size t)) (start t (hf k)) (start t (hf k)) = Ok (true, y) /\
    nth_error (ht_table t) y = Some e /\ he_status e <> INUSE /\ ~ In y l.
Proof.
  intros I Load. pose proof (inv_pos _ _ _ _ _ I) as Hp. pose proof (inv_len _ _ _ _ _ I) as Hl. pose proof (inv_count _ _ _ _ _ I) as Hc.
  destruct (probe_free t (start t (hf k)) (start_lt I (hf k)) (eq_sym Hl)) as (y & e & P & He & Se).
  { assert (X : (length l < length (ht_table t))%nat) by (assert (ht_size t / 2 < ht_size t) by (apply Z.div_lt; lia); lia).
    destruct (existsb (fun e => match he_status e with INUSE => false | _ => true end) (ht_table t)) eqn:Ex.
    - apply existsb_exists in Ex as (e & Hin & Se). apply In_nth_error in Hin as (i & He). exists i, e. split; [exact He|]. intros Z. rewrite Z in Se. discriminate Se.
    - exfalso. assert (A : forall i e, nth_error (ht_table t) i = Some e -> he_status e = INUSE).
      { intros i e He. destruct (he_status e) eqn:Se; auto; exfalso; apply nth_error_In in He; assert (Y : existsb (fun e => match he_status e with INUSE => false | _ => true end) (ht_table t) = true) by (apply existsb_exists; exists e; rewrite Se; auto); congruence. }
      apply (all_inuse_count I) in A. lia. }
  destruct (probe_run k d t (hf k) _ (start t (hf k)) eq_refl (Z.to_nat (ht_size t)) (start t (hf k))) as (q & Hq). rewrite P in Hq.
  exists (S q), y, e. split; [cbn [isteps]; rewrite (start_run k d t hf cmp l c I Load t) by reflexivity; cbn [bind]; exact Hq|]. split; [exact P|]. split; [exact He|]. split; [exact Se|].
  intros Hin. destruct (inv_in_l I _ Hin) as ([k' d'] & _ & e' & H1 & H2 & _). congruence.
Qed.

(** *** two entries in the same slot *)
Lemma round_walk {K D} (w : wstate K D) y e : nth_error (ht_table (w_table w)) y = Some e -> he_next e = Some y ->
  forall q s, match fst s with FKey i | FData i _ | FNext i => i = y | _ => False end -> exists pc out, walk (repeat false q) w s = Ok (w, (pc, out)) /\ pc <> FDone.
Proof.
  intros He Hn. induction q as [|q IH]; intros [pc out] Hs; cbn [repeat walk]; [exists pc, out; split; [reflexivity|]; intros ->; exact Hs|].
  cbn [fst] in Hs. destruct pc; try contradiction Hs; subst i; cbn [fstep]; rewrite He; cbn [bind]; apply IH; cbn [fst]; [reflexivity|reflexivity|]. rewrite Hn. reflexivity.
Qed.
Lemma same_slot {K D hf cmp} (t : htable K D) l c (a b : K * D) : ht_inv hf cmp t l c -> ht_count t <= ht_size t / 2 -> start t (hf (fst a)) = start t (hf (fst b)) ->
  exists sched u, duel a b sched t IStart IStart = Ok (u, IDone, IDone) /\ inuse_slots u = inuse_slots t + 1 /\
    forall q, exists pc out, walk (repeat false q) (mkW u [] []) (FStart, []) = Ok (mkW u [] [], (pc, out)) /\ pc <> FDone.
Proof.
  intros I Load Es. destruct a as [k1 d1], b as [k2 d2]. cbn [fst] in Es.
  destruct (reach_slot t l c k1 d1 I Load) as (q1 & y & e & R1 & P & He & Se & Ny).
  destruct (insert_spec t l c k2 d2 I Load) as (t2 & y2 & Ei & I2 & Sz2).
  assert (Hy : y2 = y). { unfold insert in Ei. destruct (ht_size t =? 0); [discriminate Ei|]. cbn zeta in Ei. fold (start t (hf k2)) in Ei. rewrite <- Es, P in Ei. cbn [bind] in Ei. congruence. } subst y2.
  assert (Ea : addto_hashtable t k2 d2 = Ok t2). { unfold addto_hashtable. pose proof (inv_pos _ _ _ _ _ I). rewrite grow_size_ok by lia. cbn [bind]. rewrite Z.eqb_refl. cbn [bind]. rewrite (inv_hf _ _ _ _ _ I), Ei. reflexivity. }
  destruct (addto_run K D t k2 d2) as (q2 & R2); [congruence|]. rewrite Ea in R2.
  pose proof (inv_head _ _ _ _ _ I2) as Hh. cbn [hd_error] in Hh. destruct (inv_in_l I2 y (or_introl eq_refl)) as ([k' d'] & _ & e2 & He2 & Se2 & _).
  set (t3 := happlys (fill k1 d1 (hf k1) y) t2). destruct (tie_run k1 d1 t3 y) as (q4 & R4). set (u := happlys (tie t3 y) t3) in *.
  exists (repeat true q1 ++ repeat false q2 ++ repeat true (4 + q4)), u. split; [|split].
  - rewrite duel_app, (duel_one _ _ q1 t t IStart (IKey (hf k1) y)) by exact R1. cbn [bind]. rewrite duel_app, (duel_two _ _ q2 t t2 _ IStart IDone) by exact R2. cbn [bind]. apply duel_one. rewrite isteps_app. cbn [fst snd]. rewrite fill_run. cbn [bind]. exact R4.
  - unfold u. rewrite (plains_inuse _ (tie_plain t3 y)). unfold t3. rewrite (fill_again t2 k1 d1 (hf k1) y e2 He2 Se2), (inuse_count I2), (inuse_count I), (inv_count _ _ _ _ _ I2), (inv_count _ _ _ _ _ I). cbn [length]. lia.
  - assert (X : exists e', nth_error (ht_table u) y = Some e' /\ he_next e' = Some y).
    { assert (H3 : ht_head t3 = Some y) by exact Hh. unfold u, tie. rewrite H3. unfold t3. cbn [app fill happlys fold_left happly set_arr ht_table]. rewrite !nth_error_upd, Nat.eqb_refl, He2. eexists. split; reflexivity. }
    destruct X as (e' & He' & Hn'). intros [|q]; [exists FStart, []; split; [reflexivity|discriminate]|]. cbn [repeat walk fstep w_table]. assert (Hu : ht_head u = Some y) by (unfold u, tie; destruct (ht_head t3); reflexivity). rewrite Hu. cbn [bind at_link].
    apply (round_walk (mkW u [] []) y e' He' Hn'). reflexivity.
Qed.

(** *** two entries in two slots *)
Lemma lost_link {K D hf cmp} (t : htable K D) l c (a b : K * D) cb : ht_inv hf cmp t l c -> ht_count t <= ht_size t / 2 -> 3 <= ht_size t -> (forall k d acc, cb k d acc = Ok (acc ++ [(k, d)], 0)) ->
  exists sched u, duel a b sched t IStart IStart = Ok (u, IDone, IDone) /\ inuse_slots u = inuse_slots t + 2 /\ ht_count u = ht_count t + 2 /\ foreach_hash_entry (fun _ => u) cb [] = Ok (given (a :: c), 0).
Proof.
  intros I Load S3 Hcb. destruct a as [k1 d1], b as [k2 d2]. pose proof (inv_len _ _ _ _ _ I) as Hlen. pose proof (inv_count _ _ _ _ _ I) as Hc.
  destruct (reach_slot t l c k1 d1 I Load) as (q1 & y & e & R1 & P & He & Se & Ny). set (tA := happlys (fill k1 d1 (hf k1) y) t).
  assert (LA : length (ht_table tA) = length (ht_table t)) by (unfold tA; cbn [fill happlys fold_left happly set_arr ht_table]; rewrite !upd_length; reflexivity).
  assert (EA : forall i, i <> y -> nth_error (ht_table tA) i = nth_error (ht_table t) i) by (intros i Ni; unfold tA; cbn [fill happlys fold_left happly set_arr ht_table]; rewrite !nth_error_upd_neq by congruence; reflexivity).
  assert (Ey : exists eA, nth_error (ht_table tA) y = Some eA /\ he_key eA = Some k1 /\ he_data eA = Some d1 /\ he_status eA = INUSE) by (unfold tA; cbn [fill happlys fold_left happly set_arr ht_table]; rewrite !nth_error_upd, Nat.eqb_refl, He; eexists; repeat split; reflexivity).
  destruct Ey as (eA & HeA & KA & DA & SA).
  (* the other thread *)
  destruct (probe_free tA (start t (hf k2))) as (z & ez & Pz & Hez & Sez).
  { rewrite LA. apply (start_lt I). }
  { rewrite LA. symmetry. exact Hlen. }
  { assert (X : exists i, In i (seq 0 (length (ht_table t))) /\ ~ In i (y :: l)).
    { destruct (Forall_Exists_dec (fun i => In i (y :: l)) (fun i => in_dec Nat.eq_dec i (y :: l)) (seq 0 (length (ht_table t)))) as [Fa|Ex]; [|apply Exists_exists in Ex; exact Ex].
      exfalso. assert (Y : (length (seq 0 (length (ht_table t))) <= length (y :: l))%nat) by (apply NoDup_incl_length; [apply seq_NoDup|exact (proj1 (Forall_forall _ _) Fa)]). rewrite seq_length in Y. cbn [length] in Y.
      pose proof (Z.div_mod (ht_size t) 2 ltac:(lia)). pose proof (Z.mod_pos_bound (ht_size t) 2 ltac:(lia)). lia. }
    destruct X as (i & Hi & Ni). apply in_seq in Hi. destruct (nth_error_lt_Some (ht_table t) i) as [ei Hei]; [lia|]. exists i, ei. split; [rewrite EA; [exact Hei|intros ->; apply Ni; left; reflexivity]|]. intros Si. apply Ni. right. eapply (inv_inuse _ _ _ _ _ I); eauto. }
  assert (Nzy : z <> y) by (intros ->; congruence). assert (Nz : ~ In z l).
  { intros Hin. destruct (inv_in_l I _ Hin) as ([k' d'] & _ & e' & H1 & H2 & _). rewrite (EA z Nzy) in Hez. congruence. }
  destruct (probe_run k2 d2 tA (hf k2) _ (start t (hf k2)) eq_refl (Z.to_nat (ht_size tA)) (start t (hf k2))) as (q2 & R2). rewrite Pz in R2.
  set (tF := happlys (fill k2 d2 (hf k2) z) tA). destruct (tie_run k2 d2 tF z) as (q3 & R3). set (tB := happlys (tie tF z) tF) in *.
  assert (HB : ht_head tB = Some z) by (unfold tB, tie; destruct (ht_head tF); reflexivity).
  assert (CB : ht_count tB = ht_count t + 1) by (unfold tB, tie; destruct (ht_head tF); reflexivity).
  set (ls := [SNext y (ht_head t); SPrev y None; SPrev z (Some y); SHead (Some y); SCount (ht_count tB + 1)] : list (hstore K D)). set (u := happlys ls tB).
  assert (R4 : isteps 7 k1 d1 (tB, INext y (ht_head t)) = Ok (u, IDone)).
  { cbn [isteps istep bind happly set_arr ht_head ht_count]. rewrite HB. cbn [isteps istep bind happly set_arr ht_head ht_count]. reflexivity. }
  exists (repeat true (q1 + (4 + 1)) ++ repeat false (S (q2 + (4 + q3))) ++ repeat true 7), u. split; [|split; [|split]].
  - rewrite duel_app, (duel_one _ _ _ t tA IStart (INext y (ht_head t))). 2:{ cbn [fst snd]. rewrite isteps_app, R1. cbn [bind]. rewrite isteps_app, fill_run. reflexivity. }
    cbn [bind]. rewrite duel_app, (duel_two _ _ _ tA tB _ IStart IDone). 2:{ cbn [fst snd isteps]. rewrite (start_run k2 d2 t hf cmp l c I Load tA) by reflexivity. cbn [bind]. rewrite isteps_app, R2. cbn [bind]. rewrite isteps_app, fill_run. cbn [bind]. exact R3. }
    cbn [bind]. apply duel_one. exact R4.
  - unfold u. rewrite plains_inuse by (repeat constructor). unfold tB. rewrite (plains_inuse _ (tie_plain tF z)). unfold tF. rewrite (fill_inuse tA k2 d2 (hf k2) z ez Hez Sez). unfold tA. rewrite (fill_inuse t k1 d1 (hf k1) y e He Se). lia.
  - change (ht_count u) with (ht_count tB + 1). lia.
  - destruct (entry_stores (fill k2 d2 (hf k2) z ++ tie tF z) y) with (u := tA) (e := eA) as (eB & HeB & KB & DB & _); [apply Forall_app; split; [apply fill_spares|apply tie_spares]; intros [->|[]]; congruence|exact HeA|].
    rewrite happlys_app in HeB. fold tF in HeB. fold tB in HeB.
    assert (Hu : exists eu, nth_error (ht_table u) y = Some eu /\ he_key eu = Some k1 /\ he_data eu = Some d1 /\ he_next eu = ht_head t).
    { unfold u, ls. cbn [happlys fold_left happly set_arr ht_table]. rewrite nth_error_upd_neq by exact Nzy. rewrite !nth_error_upd, Nat.eqb_refl, HeB. eexists. split; [reflexivity|]. cbn. repeat split; congruence. }
    destruct Hu as (eu & Heu & Ku & Du & Nu).
    assert (Cu : chain u (ht_head t) l c).
    { unfold u. apply chain_stores; [unfold ls; repeat constructor; exact Ny|]. unfold tB. apply chain_stores; [apply tie_spares; exact Nz|]. unfold tF. apply chain_stores; [apply fill_spares; exact Nz|]. unfold tA. apply chain_stores; [apply fill_spares; exact Ny|]. eapply chain_inv; exact I. }
    assert (Cy : chain u (Some y) (y :: l) ((k1, d1) :: c)) by (econstructor; [exact Heu|exact Ku|exact Du|rewrite Nu; exact Cu]).
    unfold foreach_hash_entry. change (ht_head u) with (Some y). rewrite (chain_note u cb Hcb _ _ _ Cy); [reflexivity|]. cbn [length].
    assert (Lu : length (ht_table u) = length (ht_table t)).
    { unfold u. rewrite (len_stores l) by (unfold ls; repeat constructor; exact Ny). unfold tB. rewrite (len_stores l) by (apply tie_spares; exact Nz). unfold tF. rewrite (len_stores l) by (apply fill_spares; exact Nz). exact LA. }
    rewrite Lu. pose proof (Z.div_mod (ht_size t) 2 ltac:(lia)). pose proof (Z.mod_pos_bound (ht_size t) 2 ltac:(lia)). lia.
Qed.

(** *** every interleaving: no crash, and both return *)
Section NoCrash.
Context {K D : Type} (hf : K -> Z) (n : nat) (c0 : Z).
Context (Hn : (0 < n)%nat) (Hc : 0 <= c0) (HG : c0 + 1 <= Z.of_nat n / 2).
Notation tbl := (htable K D).
Definition over (p : ipc) : Z := match p with IDone => 1 | _ => 0 end.
Definition glob (u : tbl) (p q : ipc) : Prop :=
  ht_size u = Z.of_nat n /\ length (ht_table u) = n /\ ht_hashfunc u = Some hf /\ ht_count u <= c0 + over p + over q /\
  (forall m, p = IInc m -> m <= c0 + over q) /\ (forall m, q = IInc m -> m <= c0 + over p).
Definition tinv (r : nat) (p : ipc) : Prop :=
  match p with
  | IStart => r = O
  | IProbe _ i s => (s < n)%nat /\ exists dd, (dd < n)%nat /\ i = HashProofs.slot n s dd /\ r = S dd
  | IKey _ _ => (r <= n + 1)%nat | IData _ _ => (r <= n + 2)%nat | IHash _ _ => (r <= n + 3)%nat | IStatus _ => (r <= n + 4)%nat
  | IHead _ => (r <= n + 5)%nat | INext _ _ => (r <= n + 6)%nat | IPrev _ => (r <= n + 7)%nat | IBack _ => (r <= n + 8)%nat | ILink _ _ => (r <= n + 9)%nat
  | IPub _ => (r <= n + 10)%nat | ICount => (r <= n + 11)%nat | IInc _ => (r <= n + 12)%nat | IDone => True
  end.
Lemma glob_sym u p q : glob u p q -> glob u q p.
Proof. intros (A & B & C & E & F & G). repeat split; auto. lia. Qed.
Lemma over_pos p : 0 <= over p <= 1.
Proof. destruct p; cbn; lia. Qed.
(** steps that neither touch the count nor end the call *)
Lemma glob_keep u u' p p' q : glob u p q -> over p = 0 -> over p' = 0 -> (forall m, p' <> IInc m) -> ht_size u' = ht_size u -> length (ht_table u') = length (ht_table u) -> ht_hashfunc u' = ht_hashfunc u -> ht_count u' = ht_count u -> glob u' p' q.
Proof. intros (A & B & C & E & F & G) Op Op' Ni S1 S2 S3 S4. unfold glob. rewrite S1, S2, S3, S4, Op'. rewrite Op in E, G. repeat split; auto. intros m Hm. destruct (Ni m Hm). Qed.
Lemma glob_step k d u p q r : glob u p q -> tinv r p -> exists u' p', istep k d (u, p) = Ok (u', p') /\ glob u' p' q /\ tinv (S r) p'.
Proof.
  intros G T. pose proof G as (A & B & C & E & F & H). pose proof (over_pos q) as Oq. destruct p; cbn [istep tinv over] in *.
  - (* start *) assert (Hs : 0 < ht_size u) by lia. rewrite grow_size_ok by (rewrite ?A; lia). cbn [bind]. rewrite Z.eqb_refl. cbn [bind]. rewrite C. destruct (Z.eqb_spec (ht_size u) 0); [lia|]. cbn zeta. eexists _, _. split; [reflexivity|]. split; [eapply glob_keep; eauto; discriminate|].
    cbn [tinv]. pose proof (Z.mod_pos_bound (u64 (hf k)) (ht_size u) Hs). split; [lia|]. exists O. rewrite slot_0 by lia. split; [lia|]. split; [reflexivity|lia].
  - destruct T as (Hs & dd & Hd & -> & ->). destruct (nth_error_lt_Some (ht_table u) (HashProofs.slot n s dd)) as [e He]; [rewrite B; apply slot_lt; assumption|]. rewrite He, A, Nat2Z.id.
    destruct (he_status e); [eexists _, _; split; [reflexivity|]; split; [eapply glob_keep; eauto; discriminate|cbn; lia]..|]. cbn zeta. eexists _, _. split; [reflexivity|].
    destruct (Nat.eq_dec (S dd) n) as [L|L]; [rewrite slot_step_last, Nat.eqb_refl by auto; split; [eapply glob_keep; eauto; discriminate|cbn; lia]|]. rewrite slot_step by lia.
    destruct (Nat.eqb (HashProofs.slot n s (S dd)) s); (split; [eapply glob_keep; eauto; discriminate|]); [cbn; lia|]. cbn [tinv]. split; [exact Hs|]. exists (S dd). split; [lia|]. auto.
  - eexists _, _. split; [reflexivity|]. split; [eapply glob_keep; eauto; try discriminate; cbn; rewrite ?upd_length; reflexivity|cbn; lia].
  - eexists _, _. split; [reflexivity|]. split; [eapply glob_keep; eauto; try discriminate; cbn; rewrite ?upd_length; reflexivity|cbn; lia].
  - eexists _, _. split; [reflexivity|]. split; [eapply glob_keep; eauto; try discriminate; cbn; rewrite ?upd_length; reflexivity|cbn; lia].
  - eexists _, _. split; [reflexivity|]. split; [eapply glob_keep; eauto; try discriminate; cbn; rewrite ?upd_length; reflexivity|cbn; lia].
  - eexists _, _. split; [reflexivity|]. split; [eapply glob_keep; eauto; discriminate|cbn; lia].
  - eexists _, _. split; [reflexivity|]. split; [eapply glob_keep; eauto; try discriminate; cbn; rewrite ?upd_length; reflexivity|cbn; lia].
  - eexists _, _. split; [reflexivity|]. split; [eapply glob_keep; eauto; try discriminate; cbn; rewrite ?upd_length; reflexivity|cbn; lia].
  - eexists _, _. split; [reflexivity|]. destruct (ht_head u); (split; [eapply glob_keep; eauto; discriminate|cbn; lia]).
  - eexists _, _. split; [reflexivity|]. split; [eapply glob_keep; eauto; try discriminate; cbn; rewrite ?upd_length; reflexivity|cbn; lia].
  - eexists _, _. split; [reflexivity|]. split; [eapply glob_keep; eauto; try discriminate; cbn; rewrite ?upd_length; reflexivity|cbn; lia].
  - eexists _, _. split; [reflexivity|]. split; [|cbn; lia]. unfold glob. cbn [over]. repeat split; auto. intros m Hm. injection Hm as <-. lia.
  - specialize (F n0 eq_refl). eexists _, _. split; [reflexivity|]. split; [|exact Logic.I]. unfold glob. cbn [happly ht_size ht_table ht_hashfunc ht_count over]. repeat split; auto; [lia|intros m Hm; discriminate Hm|]. intros m Hm. specialize (H m Hm). lia.
  - eexists _, _. split; [reflexivity|]. split; [exact G|exact Logic.I].
Qed.
Lemma tinv_done r p : tinv r p -> (n + 12 < r)%nat -> p = IDone.
Proof. clear Hn Hc HG. destruct p; cbn [tinv]; intros T L; try (exfalso; lia); [|reflexivity]. destruct T as (_ & dd & Hd & _ & ->). exfalso; lia. Qed.
Lemma duel_ok a b sched : forall u p q r1 r2, glob u p q -> tinv r1 p -> tinv r2 q ->
  exists u' p' q', duel a b sched u p q = Ok (u', p', q') /\ tinv (r1 + length (filter (fun x => x) sched)) p' /\ tinv (r2 + length (filter negb sched)) q'.
Proof.
  induction sched as [|x sched IH]; intros u p q r1 r2 G T1 T2; cbn [duel filter length].
  - exists u, p, q. rewrite !Nat.add_0_r. auto.
  - destruct x; cbn [negb].
    + destruct (glob_step (fst a) (snd a) u p q r1 G T1) as (u1 & p1 & -> & G1 & T1'). cbn [bind length]. destruct (IH u1 p1 q (S r1) r2 G1 T1' T2) as (u' & p' & q' & E & X & Y). exists u', p', q'. rewrite Nat.add_succ_r. auto.
    + destruct (glob_step (fst b) (snd b) u q p r2 (glob_sym _ _ _ G) T2) as (u1 & q1 & -> & G1 & T2'). cbn [bind length]. destruct (IH u1 p q1 r1 (S r2) (glob_sym _ _ _ G1) T1 T2') as (u' & p' & q' & E & X & Y). exists u', p', q'. rewrite (Nat.add_succ_r r2). auto.
Qed.
End NoCrash.
Lemma duel_safe {K D hf cmp} (t : htable K D) l c (a b : K * D) sched : ht_inv hf cmp t l c -> ht_count t + 1 <= ht_size t / 2 ->
  exists u p q, duel a b sched t IStart IStart = Ok (u, p, q) /\ (Z.to_nat (ht_size t) + 12 < length (filter (fun x => x) sched) -> p = IDone)%nat /\ (Z.to_nat (ht_size t) + 12 < length (filter negb sched) -> q = IDone)%nat.
Proof.
  intros I HG. pose proof (inv_pos _ _ _ _ _ I). pose proof (inv_len _ _ _ _ _ I) as Hl. pose proof (inv_count _ _ _ _ _ I).
  destruct (duel_ok hf (length (ht_table t)) (ht_count t) ltac:(lia) ltac:(rewrite Hl; exact HG) a b sched t IStart IStart 0 0) as (u & p & q & E & T1 & T2).
  - unfold glob. cbn [over]. repeat split; auto; [exact (inv_hf _ _ _ _ _ I)|lia|intros m Hm; discriminate Hm|intros m Hm; discriminate Hm].
  - reflexivity.
  - reflexivity.
  - exists u, p, q. split; [exact E|]. rewrite <- Hl, Nat2Z.id. split; intros L; [exact (tinv_done _ _ _ T1 L)|exact (tinv_done _ _ _ T2 L)].
Qed.
