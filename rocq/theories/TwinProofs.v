(** Two additions to a table that grows. *)
From Coq Require Import Permutation.
From Verif Require Import Base ListFacts HashModel HashProofs SpecHash HashTrace HashMoments DuelModel DuelProofs TwinModel.

Section Runs.
Context {K D : Type} (a b : K * D).
Notation tbl := (htable K D).
Lemma twin_app s1 s2 : forall (u : tbl) x y, twin a b (s1 ++ s2) u x y = (do ' (u1, x1, y1) <- twin a b s1 u x y; twin a b s2 u1 x1 y1).
Proof.
  induction s1 as [|[] s1 IH]; intros u x y; cbn [app twin bind]; [reflexivity| |].
  - destruct (tstep a u x) as [[u1 x1]|]; cbn [bind]; auto.
  - destruct (tstep b u y) as [[u1 y1]|]; cbn [bind]; auto.
Qed.
Lemma twin_one n : forall (u u' : tbl) p p' y, isteps n (fst a) (snd a) (u, p) = Ok (u', p') -> twin a b (repeat true n) u (GAdd p, None) y = Ok (u', (GAdd p', None), y).
Proof.
  induction n as [|n IH]; intros u u' p p' y E; cbn [isteps repeat twin] in *; [injection E as <- <-; reflexivity|].
  cbn [tstep gstep]. destruct (istep (fst a) (snd a) (u, p)) as [[u1 p1]|]; [|discriminate E]. cbn [bind fst lose] in *. apply IH. exact E.
Qed.
Lemma twin_two n : forall (u u' : tbl) p p' x, isteps n (fst b) (snd b) (u, p) = Ok (u', p') -> twin a b (repeat false n) u x (GAdd p, None) = Ok (u', x, (GAdd p', None)).
Proof.
  induction n as [|n IH]; intros u u' p p' x E; cbn [isteps repeat twin] in *; [injection E as <- <-; reflexivity|].
  cbn [tstep gstep]. destruct (istep (fst b) (snd b) (u, p)) as [[u1 p1]|]; [|discriminate E]. cbn [bind fst lose] in *. apply IH. exact E.
Qed.
(** a whole addition of a thread, the other one having no entry *)
Lemma twin_whole (who : bool) (t u : tbl) x : keeps (fst x) = false -> addto_hashtable t (fst (if who then a else b)) (snd (if who then a else b)) = Ok u ->
  exists n, twin a b (repeat who n) t (if who then (GSize, None) else x) (if who then x else (GSize, None)) = Ok (u, (if who then (GAdd IDone, None) else x), (if who then x else (GAdd IDone, None))).
Proof.
  intros Kx E. destruct (addto_run K D t (fst (if who then a else b)) (snd (if who then a else b))) as (q & R); [congruence|]. rewrite E in R.
  destruct q as [|q]; [discriminate R|]. cbn [isteps istep] in R. destruct (grow_size _ _ _) as [ns|] eqn:G; [|discriminate R]. cbn [bind] in R.
  assert (L : forall w : tbl, lose (GGrow ns) w x = x) by (intros w; unfold lose; destruct (snd x); [reflexivity|]; rewrite Kx; reflexivity).
  assert (T1 : forall w u' p', match ht_hashfunc w with None => Fault NullDeref | Some hf => if ht_size w =? 0 then Fault DivByZero else let i := Z.to_nat (u64 (hf (fst (if who then a else b))) mod ht_size w) in Ok (w, IProbe (hf (fst (if who then a else b))) i i) end = Ok (u', p') ->
    gstep (fst (if who then a else b)) (snd (if who then a else b)) (w, GHash) = Ok (u', GAdd p')).
  { intros w u' p' X. cbn [gstep]. destruct (ht_hashfunc w); [|discriminate X]. destruct (ht_size w =? 0); [discriminate X|]. cbn zeta in X. injection X as <- <-. reflexivity. }
  destruct (ns =? ht_size t) eqn:Gt; cbn [bind] in R.
  - exists (S (S q)). destruct (match ht_hashfunc t with None => _ | Some _ => _ end) as [[u1 p1]|] eqn:H1; [|discriminate R]. cbn [bind] in R. specialize (T1 t u1 p1 H1).
    destruct who; cbn [repeat twin tstep]; unfold gstep at 1; rewrite G; cbn [bind]; rewrite Gt; cbn [fst lose tstep]; rewrite T1; cbn [bind]; [apply twin_one|apply twin_two]; exact R.
  - destruct (grow_hashtable t ns) as [w|] eqn:Gw; [|discriminate R]. cbn [bind] in R. exists (S (S (S q))). destruct (match ht_hashfunc w with None => _ | Some _ => _ end) as [[u1 p1]|] eqn:H1; [|discriminate R]. cbn [bind] in R. specialize (T1 w u1 p1 H1).
    destruct who; cbn [repeat twin tstep]; unfold gstep at 1; rewrite G; cbn [bind]; rewrite Gt; cbn [fst tstep]; unfold gstep at 1; rewrite Gw; cbn [bind fst tstep]; rewrite T1; cbn [bind]; rewrite ?L; cbn [fst]; change (lose GSize t x) with x; rewrite ?L; change (lose GHash w x) with x; [apply twin_one|apply twin_two]; exact R.
Qed.
(** the stores of an addition in the array given back *)
Lemma stray_run (now old : tbl) v i h y : ht_head now = Some h ->
  twin a b (repeat true 8) now (GAdd (IKey v i), Some old) y = Ok (now, (GAdd (ILink i h), Some (happlys [SKey i (Some (fst a)); SData i (Some (snd a)); SHash i v; SStatus i INUSE; SNext i (Some h); SPrev i None] old)), y).
Proof.
  intros Hh. cbn [repeat twin tstep stray istep bind fst lose]. rewrite !Hh. reflexivity.
Qed.
End Runs.

Lemma twin_lost {K D hf cmp} (t : htable K D) l c (a b : K * D) : ht_inv hf cmp t l c -> ht_size t / 2 < ht_count t ->
  exists sched u old y e h l' c', twin a b sched t (GSize, None) (GSize, None) = Ok (u, (GAdd (ILink y h), Some old), (GAdd IDone, None)) /\
    ht_inv hf cmp u l' (b :: c') /\ Permutation c c' /\ ht_size u = 2 * ht_size t /\ ht_size old = 2 * ht_size t /\
    nth_error (ht_table old) y = Some e /\ he_key e = Some (fst a) /\ he_data e = Some (snd a) /\ he_status e = INUSE.
Proof.
  intros I HG. pose proof (inv_pos _ _ _ _ _ I) as Hp. pose proof (inv_load _ _ _ _ _ I) as Hl. assert (H0 : 0 <= ht_size t / 2) by (apply Z.div_pos; lia).
  destruct (grow_size_spec (S (S (Z.to_nat (ht_count t)))) (ht_count t) (ht_size t)) as (ns & G & G1 & _ & [->|[_ ->]]); try lia.
  destruct (grow_spec t l c (2 * ht_size t) I) as (u1 & l1 & c1 & E1 & I1 & P1 & S1); try lia.
  assert (C1 : ht_count u1 = ht_count t) by (rewrite (inv_count_c I), (inv_count_c I1), (Permutation_length P1); reflexivity).
  destruct (grow_spec u1 l1 c1 (2 * ht_size t) I1) as (u2 & l2 & c2 & E2 & I2 & P2 & S2); try lia.
  assert (C2 : ht_count u2 = ht_count u1) by (rewrite (inv_count_c I1), (inv_count_c I2), (Permutation_length P2); reflexivity).
  assert (L1 : ht_count u1 <= ht_size u1 / 2) by (rewrite C1, S1; exact G1). assert (L2 : ht_count u2 <= ht_size u2 / 2) by (rewrite C2, C1, S2; exact G1).
  destruct (reach_slot u1 l1 c1 (fst a) (snd a) I1 L1) as (q1 & y & e & R1 & _ & He & _ & _). destruct q1 as [|q1]; [discriminate R1|]. cbn [isteps] in R1. rewrite (start_run _ _ u1 hf cmp l1 c1 I1 L1 u1) in R1 by reflexivity. cbn [bind] in R1.
  destruct (insert_spec u2 l2 c2 (fst b) (snd b) I2 L2) as (v & z & Ei & Iv & Sv).
  assert (Ea : addto_hashtable u2 (fst b) (snd b) = Ok v). { unfold addto_hashtable. pose proof (inv_pos _ _ _ _ _ I2). rewrite grow_size_ok by lia. cbn [bind]. rewrite Z.eqb_refl. cbn [bind]. rewrite (inv_hf _ _ _ _ _ I2), Ei. reflexivity. }
  destruct (addto_run K D u2 (fst b) (snd b)) as (q2 & R2); [congruence|]. rewrite Ea in R2. destruct q2 as [|q2]; [discriminate R2|]. cbn [isteps] in R2. rewrite (start_run _ _ u2 hf cmp l2 c2 I2 L2 u2) in R2 by reflexivity. cbn [bind] in R2.
  pose proof (inv_head _ _ _ _ _ Iv) as Hh. cbn [hd_error] in Hh.
  exists ([true; false; true; true] ++ repeat true q1 ++ [false; false] ++ repeat false q2 ++ repeat true 8), v. eexists _, y, _, z, (z :: l2), c2. split; [|split].
  - rewrite twin_app. cbn [twin tstep gstep bind]. rewrite G. cbn [bind]. assert (X : (2 * ht_size t =? ht_size t) = false) by (apply Z.eqb_neq; lia). rewrite X. cbn [fst lose snd tstep gstep bind keeps]. rewrite G. cbn [bind]. rewrite X. cbn [fst lose snd tstep gstep bind keeps].
    rewrite E1. cbn [bind fst lose snd keeps tstep gstep]. rewrite (inv_hf _ _ _ _ _ I1). destruct (Z.eqb_spec (ht_size u1) 0); [lia|]. cbn zeta. cbn [bind fst lose snd keeps]. fold (start u1 (hf (fst a))).
    rewrite twin_app, (twin_one a b q1 u1 u1 _ (IKey (hf (fst a)) y)) by exact R1. cbn [bind]. rewrite twin_app. cbn [twin tstep gstep bind]. rewrite E2. cbn [bind fst lose snd keeps tstep gstep].
    rewrite (inv_hf _ _ _ _ _ I2). destruct (Z.eqb_spec (ht_size u2) 0); [lia|]. cbn zeta. cbn [bind fst lose snd keeps]. fold (start u2 (hf (fst b))).
    rewrite twin_app, (twin_two a b q2 u2 v _ IDone) by exact R2. cbn [bind]. rewrite (stray_run a b v u1 (hf (fst a)) y z) by exact Hh. reflexivity.
  - destruct b. exact Iv.
  - split; [exact (Permutation_trans P1 P2)|]. split; [congruence|]. split; [exact S1|]. split; [cbn [happlys fold_left happly set_arr ht_table]; rewrite !nth_error_upd, Nat.eqb_refl, He; reflexivity|]. split; [reflexivity|]. split; reflexivity.
Qed.

(** *** when no growth is needed *)
Section NoGrowth.
Context {K D : Type} (hf : K -> Z) (n : nat) (c : Z) (Hn : (0 < n)%nat) (HG : c + 1 <= Z.of_nat n / 2).
Notation tbl := (htable K D).
Definition core (p : gpc) : ipc := match p with GAdd p => p | _ => IStart end.
Definition at_step (r : nat) (p : gpc) : Prop :=
  match p with GSize => r = O | GGrow _ => False | GHash => r = 1%nat | GAdd p => exists r', r = S r' /\ tinv n r' p end.
Lemma calm_step (a : K * D) (u : tbl) p q r : glob hf n c u (core p) (core q) -> at_step r p ->
  exists u' p', tstep a u (p, None) = Ok (u', (p', None)) /\ glob hf n c u' (core p') (core q) /\ at_step (S r) p' /\ forall x, lose p u x = x.
Proof.
  intros G T. assert (L : forall x, lose p u x = x) by (intros x; destruct p; cbn [at_step] in T; [reflexivity|contradiction T|reflexivity|reflexivity]).
  destruct p; cbn [at_step core tstep gstep] in *; [|contradiction T| |].
  - pose proof G as (A & B & C & E & F & H). assert (0 <= over (core q) <= 1) by (destruct (core q); cbn; lia). cbn [over] in E. rewrite grow_size_ok by (rewrite ?A; lia). cbn [bind]. rewrite Z.eqb_refl. exists u, GHash. subst r. split; [reflexivity|]. split; [exact G|]. split; [reflexivity|exact L].
  - destruct (glob_step hf n c Hn HG (fst a) (snd a) u IStart (core q) 0 G eq_refl) as (u' & p' & E' & G' & T'). pose proof G as (A & B & C & E & F & H). assert (0 <= over (core q) <= 1) by (destruct (core q); cbn; lia). cbn [over] in E.
    cbn [istep] in E'. rewrite grow_size_ok in E' by (rewrite ?A; lia). cbn [bind] in E'. rewrite Z.eqb_refl in E'. cbn [bind] in E'. rewrite C in *. destruct (ht_size u =? 0); [discriminate E'|]. cbn zeta in *. injection E' as <- <-. cbn [bind].
    eexists _, _. split; [reflexivity|]. split; [exact G'|]. split; [|exact L]. exists 1%nat. subst r. auto.
  - destruct T as (r' & -> & T). destruct (glob_step hf n c Hn HG (fst a) (snd a) u p (core q) r' G T) as (u' & p' & E' & G' & T'). rewrite E'. cbn [bind]. exists u', (GAdd p'). split; [reflexivity|]. split; [exact G'|]. split; [|exact L]. exists (S r'). auto.
Qed.
Lemma calm_run a b sched : forall (u : tbl) p q r1 r2, glob hf n c u (core p) (core q) -> at_step r1 p -> at_step r2 q ->
  exists u' p' q', twin a b sched u (p, None) (q, None) = Ok (u', (p', None), (q', None)) /\ at_step (r1 + length (filter (fun x => x) sched)) p' /\ at_step (r2 + length (filter negb sched)) q' /\ ht_size u' = Z.of_nat n.
Proof.
  induction sched as [|x sched IH]; intros u p q r1 r2 G T1 T2; cbn [twin filter length].
  - exists u, p, q. rewrite !Nat.add_0_r. destruct G as (A & _). auto.
  - destruct x; cbn [negb].
    + destruct (calm_step a u p q r1 G T1) as (u1 & p1 & -> & G1 & T1' & L). cbn [bind length fst]. rewrite L. rewrite Nat.add_succ_r. apply (IH u1 p1 q (S r1) r2 G1 T1' T2).
    + destruct (calm_step b u q p r2 (glob_sym _ _ _ Hn _ _ _ G) T2) as (u1 & q1 & -> & G1 & T2' & L). cbn [bind length fst]. rewrite L. rewrite (Nat.add_succ_r r2). apply (IH u1 p q1 r1 (S r2) (glob_sym _ _ _ Hn _ _ _ G1) T1 T2').
Qed.
Lemma at_done r p : at_step r p -> (n + 13 < r)%nat -> p = GAdd IDone.
Proof. clear Hn HG. destruct p; cbn [at_step]; intros T L; [lia|contradiction T|lia|]. destruct T as (r' & -> & T). rewrite (tinv_done n r' p T) by lia. reflexivity. Qed.
End NoGrowth.
Lemma calm {K D hf cmp} (t : htable K D) l c (a b : K * D) sched : ht_inv hf cmp t l c -> ht_count t + 1 <= ht_size t / 2 ->
  exists u p q, twin a b sched t (GSize, None) (GSize, None) = Ok (u, (p, None), (q, None)) /\ ht_size u = ht_size t /\ (forall m, p <> GGrow m /\ q <> GGrow m) /\
    (Z.to_nat (ht_size t) + 13 < length (filter (fun x => x) sched) -> p = GAdd IDone)%nat /\ (Z.to_nat (ht_size t) + 13 < length (filter negb sched) -> q = GAdd IDone)%nat.
Proof.
  intros I HG. pose proof (inv_pos _ _ _ _ _ I). pose proof (inv_len _ _ _ _ _ I) as Hl. pose proof (inv_count _ _ _ _ _ I).
  destruct (calm_run hf (length (ht_table t)) (ht_count t) ltac:(lia) ltac:(rewrite Hl; exact HG) a b sched t GSize GSize 0 0) as (u & p & q & E & T1 & T2 & Sz).
  - unfold glob. cbn [over core]. repeat split; auto; [exact (inv_hf _ _ _ _ _ I)|lia|intros m Hm; discriminate Hm|intros m Hm; discriminate Hm].
  - reflexivity.
  - reflexivity.
  - exists u, p, q. split; [exact E|]. split; [congruence|]. split; [intros m; split; intros ->; [exact T1|exact T2]|]. rewrite <- Hl, Nat2Z.id. split; intros L; [exact (at_done _ _ _ T1 L)|exact (at_done _ _ _ T2 L)].
Qed.

(** *** a growth while the other thread searches *)
Lemma twin_search {K D hf cmp} (t : htable K D) l c (a b : K * D) : ht_inv hf cmp t l c -> ht_size t / 2 < ht_count t ->
  exists n u l' c', twin a b ([true; false; true; true; false] ++ repeat true n) t (GSize, None) (GSize, None) = Ok (u, (GAdd IDone, None), (GHash, None)) /\
    ht_inv hf cmp u l' (a :: c') /\ Permutation c c' /\ ht_size u = 2 * ht_size t.
Proof.
  intros I HG. pose proof (inv_pos _ _ _ _ _ I) as Hp. pose proof (inv_load _ _ _ _ _ I) as Hl. assert (H0 : 0 <= ht_size t / 2) by (apply Z.div_pos; lia).
  destruct (grow_size_spec (S (S (Z.to_nat (ht_count t)))) (ht_count t) (ht_size t)) as (ns & G & G1 & _ & [->|[_ ->]]); try lia.
  destruct (grow_spec t l c (2 * ht_size t) I) as (u1 & l1 & c1 & E1 & I1 & P1 & S1); try lia.
  assert (C1 : ht_count u1 = ht_count t) by (rewrite (inv_count_c I), (inv_count_c I1), (Permutation_length P1); reflexivity).
  destruct (grow_spec u1 l1 c1 (2 * ht_size t) I1) as (u2 & l2 & c2 & E2 & I2 & P2 & S2); try lia.
  assert (C2 : ht_count u2 = ht_count u1) by (rewrite (inv_count_c I1), (inv_count_c I2), (Permutation_length P2); reflexivity).
  assert (L2 : ht_count u2 <= ht_size u2 / 2) by (rewrite C2, C1, S2; exact G1).
  destruct (insert_spec u2 l2 c2 (fst a) (snd a) I2 L2) as (v & z & Ei & Iv & Sv).
  assert (Ea : addto_hashtable u2 (fst a) (snd a) = Ok v). { unfold addto_hashtable. pose proof (inv_pos _ _ _ _ _ I2). rewrite grow_size_ok by lia. cbn [bind]. rewrite Z.eqb_refl. cbn [bind]. rewrite (inv_hf _ _ _ _ _ I2), Ei. reflexivity. }
  destruct (addto_run K D u2 (fst a) (snd a)) as (q2 & R2); [congruence|]. rewrite Ea in R2. destruct q2 as [|q2]; [discriminate R2|]. cbn [isteps] in R2. rewrite (start_run _ _ u2 hf cmp l2 c2 I2 L2 u2) in R2 by reflexivity. cbn [bind] in R2.
  exists q2, v, (z :: l2), c2. split; [|split; [destruct a; exact Iv|split; [exact (Permutation_trans P1 P2)|congruence]]].
  rewrite twin_app. cbn [twin tstep gstep bind]. rewrite G. cbn [bind]. assert (X : (2 * ht_size t =? ht_size t) = false) by (apply Z.eqb_neq; lia). rewrite X. cbn [fst lose snd tstep gstep bind keeps]. rewrite G. cbn [bind]. rewrite X. cbn [fst lose snd tstep gstep bind keeps].
  rewrite E1. cbn [bind fst lose snd keeps tstep gstep]. rewrite (inv_hf _ _ _ _ _ I1). destruct (Z.eqb_spec (ht_size u1) 0); [lia|]. cbn zeta. cbn [bind fst lose snd keeps tstep gstep]. rewrite E2. cbn [bind fst lose snd keeps].
  apply twin_one. replace (Z.to_nat (u64 (hf (fst a)) mod ht_size u1)) with (start u2 (hf (fst a))); [exact R2|]. unfold start. rewrite S1, S2. reflexivity.
Qed.
