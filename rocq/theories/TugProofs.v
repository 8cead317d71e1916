(** A removal and an addition at the same time. *)
From Verif Require Import Base ListFacts HashModel HashProofs SpecHash HashTrace HashMoments SpecMoments MomentProofs RaceModel WalkModel WalkProofs DuelModel DuelProofs TugModel.

Section Steps.
Context {K D : Type} (k : K).
Notation tbl := (htable K D).
Lemma dsteps_app a b (x : tbl * dpc) : dsteps (a + b) k x = (do y <- dsteps a k x; dsteps b k y).
Proof. revert x. induction a as [|a IH]; intros x; cbn [plus dsteps bind]; [reflexivity|]. destruct (dstep k x); cbn [bind]; auto. Qed.
Definition wipe (i : nat) : list (hstore K D) := [SKey i None; SData i None; SHash i 0; SStatus i TOMBSTONE].
Lemma wipe_run (u : tbl) i : dsteps 4 k (u, DKey i) = Ok (happlys (wipe i) u, DNext i).
Proof. reflexivity. Qed.
Lemma wipe_nth (u : tbl) i e : nth_error (ht_table u) i = Some e -> nth_error (ht_table (happlys (wipe i) u)) i = Some (mkHE None None 0 (he_next e) (he_prev e) TOMBSTONE).
Proof. intros He. cbn [wipe happlys fold_left happly set_arr ht_table]. rewrite !nth_error_upd, Nat.eqb_refl, He. reflexivity. Qed.
Definition back (i : nat) (e : hentry K D) : list (hstore K D) := match he_next e with Some nx => [SPrev nx (he_prev e)] | None => [] end.
Definition forth (i : nat) (e : hentry K D) : list (hstore K D) := match he_prev e with Some pv => [SNext pv (he_next e)] | None => [] end.
Definition unhead (u : tbl) (i : nat) (e : hentry K D) : list (hstore K D) := match ht_head u with Some h => if Nat.eqb h i then [SHead (he_next e)] else [] | None => [] end.
Lemma back_run (u : tbl) i e : nth_error (ht_table u) i = Some e -> exists q, dsteps q k (u, DNext i) = Ok (happlys (back i e) u, DPrev i).
Proof.
  intros He. unfold back. destruct (he_next e) as [nx|] eqn:En; [exists 3%nat|exists 1%nat]; cbn [dsteps dstep]; unfold at_entry; rewrite He; cbn [bind]; rewrite En; cbn [dsteps dstep bind]; [|reflexivity].
  unfold at_entry. rewrite He. reflexivity.
Qed.
Lemma forth_run (u : tbl) i e : nth_error (ht_table u) i = Some e -> exists q, dsteps q k (u, DPrev i) = Ok (happlys (forth i e) u, DHead i).
Proof.
  intros He. unfold forth. destruct (he_prev e) as [pv|] eqn:Ep; [exists 3%nat|exists 1%nat]; cbn [dsteps dstep]; unfold at_entry; rewrite He; cbn [bind]; rewrite Ep; cbn [dsteps dstep bind]; [|reflexivity].
  unfold at_entry. rewrite He. reflexivity.
Qed.
Lemma unhead_run (u : tbl) i e : nth_error (ht_table u) i = Some e -> exists q, dsteps q k (u, DHead i) = Ok (happlys (unhead u i e ++ [SCount (ht_count u - 1)]) u, DDone true).
Proof.
  intros He. unfold unhead. destruct (ht_head u) as [h|] eqn:Eh; [destruct (Nat.eqb h i) eqn:Ei|].
  - exists 5%nat. cbn [dsteps dstep bind]. rewrite Eh, Ei. cbn [dsteps dstep bind]. unfold at_entry. rewrite He. reflexivity.
  - exists 3%nat. cbn [dsteps dstep bind]. rewrite Eh, Ei. reflexivity.
  - exists 3%nat. cbn [dsteps dstep bind]. rewrite Eh. reflexivity.
Qed.
(** links of the entry are not changed by its own removal *)
Lemma back_nth (u : tbl) i e : nth_error (ht_table u) i = Some e -> exists e', nth_error (ht_table (happlys (back i e) u)) i = Some e' /\ he_next e' = he_next e /\ he_prev e' = he_prev e.
Proof.
  intros He. unfold back. destruct (he_next e) as [nx|] eqn:En; [|exists e; auto]. cbn [happlys fold_left happly set_arr ht_table]. rewrite nth_error_upd. destruct (Nat.eqb nx i); [|exists e; auto]. rewrite He. eexists. split; [reflexivity|]. auto.
Qed.
Lemma forth_nth (u : tbl) i e : nth_error (ht_table u) i = Some e -> exists e', nth_error (ht_table (happlys (forth i e) u)) i = Some e' /\ he_next e' = he_next e /\ he_prev e' = he_prev e.
Proof.
  intros He. unfold forth. destruct (he_prev e) as [pv|] eqn:En; [|exists e; auto]. cbn [happlys fold_left happly set_arr ht_table]. rewrite nth_error_upd. destruct (Nat.eqb pv i); [|exists e; auto]. rewrite He. eexists. split; [reflexivity|]. auto.
Qed.
Lemma wipe_head (u : tbl) i : ht_head (happlys (wipe i) u) = ht_head u /\ ht_count (happlys (wipe i) u) = ht_count u.
Proof. split; reflexivity. Qed.
Lemma back_head (u : tbl) i e : ht_head (happlys (back i e) u) = ht_head u /\ ht_count (happlys (back i e) u) = ht_count u.
Proof. unfold back. destruct (he_next e); split; reflexivity. Qed.
Lemma forth_head (u : tbl) i e : ht_head (happlys (forth i e) u) = ht_head u /\ ht_count (happlys (forth i e) u) = ht_count u.
Proof. unfold forth. destruct (he_prev e); split; reflexivity. Qed.
(** from the clearing of entry [i] to the end *)
Definition drop (u : tbl) (i : nat) (e : hentry K D) : list (hstore K D) := wipe i ++ back i e ++ forth i e ++ unhead u i e ++ [SCount (ht_count u - 1)].
Lemma drop_run (u : tbl) i e : nth_error (ht_table u) i = Some e -> exists q, dsteps q k (u, DKey i) = Ok (happlys (drop u i e) u, DDone true).
Proof.
  intros He. pose proof (wipe_nth u i e He) as H1. set (e1 := mkHE None None 0 (he_next e) (he_prev e) TOMBSTONE) in *. set (u1 := happlys (wipe i) u) in *.
  destruct (back_run u1 i e1 H1) as (q2 & R2). destruct (back_nth u1 i e1 H1) as (e2 & H2 & N2 & P2). set (u2 := happlys (back i e1) u1) in *.
  destruct (forth_run u2 i e2 H2) as (q3 & R3). destruct (forth_nth u2 i e2 H2) as (e3 & H3 & N3 & P3). set (u3 := happlys (forth i e2) u2) in *.
  destruct (unhead_run u3 i e3 H3) as (q4 & R4). exists (4 + (q2 + (q3 + q4)))%nat. rewrite dsteps_app, wipe_run. cbn [bind]. fold u1. rewrite dsteps_app, R2. cbn [bind]. fold u2. rewrite dsteps_app, R3. cbn [bind]. rewrite R4.
  unfold drop. rewrite !happlys_app. fold u1. assert (E1 : back i e1 = back i e) by reflexivity. rewrite <- E1. fold u2. assert (E2 : forth i e2 = forth i e) by (unfold forth; rewrite P2, N2; reflexivity). rewrite <- E2. fold u3.
  assert (Hh : ht_head u3 = ht_head u /\ ht_count u3 = ht_count u) by (unfold u3, u2, u1; destruct (forth_head (happlys (back i e1) (happlys (wipe i) u)) i e2) as [-> ->]; destruct (back_head (happlys (wipe i) u) i e1) as [-> ->]; split; reflexivity).
  destruct Hh as [Hh Hc]. unfold unhead. rewrite Hh, Hc, N3, N2. reflexivity.
Qed.
End Steps.
Lemma loop_in K D (tb : list (hentry K D)) n cmp k h s fuel : forall j i, lookup_loop fuel tb n cmp k h j s = Ok (Some i) -> nth_error tb i <> None.
Proof.
  induction fuel as [|fuel IH]; intros j i L; cbn [lookup_loop] in L; [discriminate L|].
  destruct (nth_error tb j) as [e|] eqn:Hj; [|discriminate L]. destruct (match he_status e with INUSE => _ | _ => _ end) as [hit|]; cbn [bind] in L; [|discriminate L].
  destruct hit; [injection L as <-; congruence|]. destruct (he_status e); [discriminate L| |]; cbv zeta in L.
  all: match type of L with (if ?b then _ else _) = _ => destruct b; [discriminate L|eapply IH; exact L] end.
Qed.
Lemma lookup_in K D (t : htable K D) k i : lookup t k = Ok (Some i) -> nth_error (ht_table t) i <> None.
Proof.
  unfold lookup. intros L. destruct (ht_hashfunc t) as [hf|]; [|discriminate L]. destruct (ht_keycmp t) as [cmp|]; [|discriminate L]. destruct (ht_size t =? 0); [discriminate L|]. eapply loop_in; exact L.
Qed.
Lemma remove_run K D (t : htable K D) k :
  exists q, dsteps q k (t, DStart) = match removefrom_hashtable t k with Ok (t', b) => Ok (t', DDone b) | Fault f => Fault f end.
Proof.
  pose proof (remove_stores_ok t k) as S. unfold remove_stores, removefrom_hashtable in *. destruct (lookup t k) as [[i|]|f] eqn:L; cbn [bind] in *.
  - destruct (nth_error (ht_table t) i) as [e|] eqn:He.
    + destruct S as (b & S). destruct (drop_run k t i e He) as (q & R). exists (Datatypes.S q). cbn [dsteps dstep]. rewrite L. cbn [bind]. rewrite R. injection S as S <-. rewrite S. reflexivity.
    + exfalso. exact (lookup_in _ _ t k i L He).
  - exists 1%nat. cbn [dsteps dstep]. rewrite L. reflexivity.
  - exists 1%nat. cbn [dsteps dstep]. rewrite L. reflexivity.
Qed.

Section Runs.
Context {K D : Type} (a : K * D) (k : K).
Lemma mix_app s1 s2 : forall (u : htable K D) p q, mix a k (s1 ++ s2) u p q = (do ' (u1, p1, q1) <- mix a k s1 u p q; mix a k s2 u1 p1 q1).
Proof. induction s1 as [|[|] s1 IH]; intros u p q; cbn [app mix bind]; [reflexivity| |]; [destruct (istep _ _ _) as [[? ?]|]|destruct (dstep _ _) as [[? ?]|]]; cbn [bind]; auto. Qed.
Lemma mix_add n : forall (u u' : htable K D) p p' q, isteps n (fst a) (snd a) (u, p) = Ok (u', p') -> mix a k (repeat true n) u p q = Ok (u', p', q).
Proof. induction n as [|n IH]; intros u u' p p' q E; cbn [isteps repeat mix] in *; [injection E as <- <-; reflexivity|]. destruct (istep _ _ _) as [[u1 p1]|]; cbn [bind] in *; [auto|discriminate E]. Qed.
Lemma mix_rem n : forall (u u' : htable K D) p q q', dsteps n k (u, q) = Ok (u', q') -> mix a k (repeat false n) u p q = Ok (u', p, q').
Proof. induction n as [|n IH]; intros u u' p q q' E; cbn [dsteps repeat mix] in *; [injection E as <- <-; reflexivity|]. destruct (dstep _ _) as [[u1 p1]|]; cbn [bind] in *; [auto|discriminate E]. Qed.
End Runs.

(** the latest entry is the one a lookup of its key finds, if no other has the key *)
Lemma head_lookup {K D hf cmp} (t : htable K D) i l k d c : ht_inv hf cmp t (i :: l) ((k, d) :: c) -> match_key hf cmp k k -> (forall k', In k' (map fst c) -> ~ match_key hf cmp k' k) -> lookup t k = Ok (Some i).
Proof.
  intros I Mk Oth. destruct (lookup_spec t _ _ k I) as [(j & e & k' & dt & L & He & Se & Ke & _ & M)|[_ N]]; [|destruct (N k d (or_introl eq_refl) Mk)].
  destruct (inv_inuse _ _ _ _ _ I j e He Se) as [->|Hj]; [exact L|]. pose proof (inv_cont _ _ _ _ _ I) as Fa. inversion Fa as [|? ? ? ? _ Fa']; subst.
  destruct (Forall2_In_l _ _ _ _ Fa' Hj) as ([k2 d2] & Hin & e2 & He2 & _ & K2 & _). cbn [fst] in K2. assert (k2 = k') by congruence. subst k2. destruct (Oth k'); [apply in_map_iff; exists (k', d2); auto|exact M].
Qed.
Lemma wipe_spares {K D} i I : ~ In i I -> Forall (@spares K D I) (wipe i).
Proof. intros H. repeat constructor; exact H. Qed.
Lemma back_spares {K D} i (e : hentry K D) I : Forall (spares I) (back i e).
Proof. unfold back. destruct (he_next e); repeat constructor. Qed.

(** *** the addition has read the head, the removal takes that entry away, the addition links to it *)
Lemma ghost {K D hf cmp} (t : htable K D) i l k d c (a : K * D) cb : ht_inv hf cmp t (i :: l) ((k, d) :: c) -> ht_count t <= ht_size t / 2 -> lookup t k = Ok (Some i) -> (forall k d acc, cb k d acc = Ok (acc ++ [(k, d)], 0)) ->
  exists sched u, mix a k sched t IStart DStart = Ok (u, IDone, DDone true) /\ ht_count u = ht_count t /\ foreach_hash_entry (fun _ => u) cb [] = Ok ((Some (fst a), Some (snd a)) :: (None, None) :: given c, 0).
Proof.
  intros I Load Lk Hcb. destruct a as [k1 d1]. cbn [fst snd]. pose proof (inv_len _ _ _ _ _ I) as Hlen. pose proof (inv_count _ _ _ _ _ I) as Hc. cbn [length] in Hc.
  destruct (reach_slot t _ _ k1 d1 I Load) as (q1 & y & e & R1 & _ & He & Se & Ny). assert (Nyi : i <> y) by (intros ->; apply Ny; left; reflexivity). assert (Nyl : ~ In y l) by (intros X; apply Ny; right; exact X).
  pose proof (inv_nodup _ _ _ _ _ I) as ND. inversion ND as [|? ? Nil ND']; subst. pose proof (inv_links _ _ _ _ _ I) as (ei & Hei & Pei & Nei & _). pose proof (inv_head _ _ _ _ _ I) as Hh. cbn [hd_error] in Hh.
  set (tA := happlys (fill k1 d1 (hf k1) y) t).
  assert (EA : nth_error (ht_table tA) i = Some ei) by (unfold tA; cbn [fill happlys fold_left happly set_arr ht_table]; rewrite !nth_error_upd_neq by congruence; exact Hei).
  assert (Ey : exists eA, nth_error (ht_table tA) y = Some eA /\ he_key eA = Some k1 /\ he_data eA = Some d1) by (unfold tA; cbn [fill happlys fold_left happly set_arr ht_table]; rewrite !nth_error_upd, Nat.eqb_refl, He; eexists; repeat split; reflexivity).
  destruct Ey as (eA & HeA & KA & DA).
  destruct (drop_run k tA i ei EA) as (q2 & R2). set (tR := happlys (drop tA i ei) tA) in *.
  assert (Ed : drop tA i ei = wipe i ++ back i ei ++ [SHead (hd_error l); SCount (ht_count t - 1)]).
  { unfold drop, forth, unhead. rewrite Pei. change (ht_head tA) with (ht_head t). rewrite Hh, Nat.eqb_refl, Nei. reflexivity. }
  assert (HR : ht_head tR = hd_error l /\ ht_count tR = ht_count t - 1) by (unfold tR; rewrite Ed, !happlys_app; split; reflexivity). destruct HR as [HR CR].
  assert (NeR : forall j, hd_error l = Some j -> j <> i) by (intros j Hj ->; apply Nil; destruct l; [discriminate Hj|]; injection Hj as ->; left; reflexivity).
  assert (Ei : nth_error (ht_table tR) i = Some (mkHE None None 0 (hd_error l) None TOMBSTONE)).
  { unfold tR. rewrite Ed, !happlys_app. cbn [happlys fold_left happly ht_table]. pose proof (wipe_nth tA i ei EA) as W. rewrite Nei, Pei in W. unfold back. rewrite Nei. destruct (hd_error l) as [j|] eqn:Hj; [|exact W].
    cbn [happlys fold_left happly set_arr ht_table]. rewrite nth_error_upd_neq by exact (NeR j eq_refl). exact W. }
  assert (Sp : forall I0, ~ In i I0 -> Forall (spares I0) (drop tA i ei)) by (intros I0 N0; rewrite Ed; apply Forall_app; split; [apply wipe_spares; exact N0|]; apply Forall_app; split; [apply back_spares|repeat constructor]).
  destruct (entry_stores (drop tA i ei) y) with (u := tA) (e := eA) as (eB & HeB & KB & DB & _); [apply Sp; intros [X|[]]; congruence|exact HeA|]. fold tR in HeB.
  set (ls := [SNext y (Some i); SPrev y None] ++ (match hd_error l with Some j => [SPrev j (Some y)] | None => [] end) ++ [SHead (Some y); SCount (ht_count tR + 1)] : list (hstore K D)). set (u := happlys ls tR).
  assert (R4 : exists q4, isteps q4 k1 d1 (tR, INext y (Some i)) = Ok (u, IDone)).
  { unfold u, ls. destruct (hd_error l) as [j|] eqn:Hj; [exists 7%nat|exists 6%nat]; cbn [isteps istep bind happly set_arr ht_head ht_count]; rewrite HR; cbn [app happlys fold_left isteps istep bind happly set_arr ht_head ht_count]; reflexivity. }
  destruct R4 as (q4 & R4).
  assert (Sl : forall I0, ~ In y I0 -> Forall (spares I0) ls) by (intros I0 N0; unfold ls; destruct (hd_error l); repeat constructor; exact N0).
  exists (repeat false 1 ++ repeat true (q1 + (4 + 1)) ++ repeat false q2 ++ repeat true q4), u. split; [|split].
  - rewrite mix_app, (mix_rem _ _ 1 t t IStart DStart (DKey i)) by (cbn [dsteps dstep]; rewrite Lk; reflexivity). cbn [bind].
    rewrite mix_app, (mix_add _ _ _ t tA IStart (INext y (Some i))). 2:{ cbn [fst snd]. rewrite isteps_app, R1. cbn [bind]. rewrite isteps_app, fill_run. cbn [bind isteps istep]. change (ht_head (happlys _ t)) with (ht_head t). rewrite Hh. reflexivity. }
    cbn [bind]. rewrite mix_app, (mix_rem _ _ q2 tA tR _ (DKey i) (DDone true)) by exact R2. cbn [bind]. apply mix_add. exact R4.
  - unfold u, ls. destruct (hd_error l); cbn [app happlys fold_left happly ht_count]; lia.
  - assert (Hu : exists eu, nth_error (ht_table u) y = Some eu /\ he_key eu = Some k1 /\ he_data eu = Some d1 /\ he_next eu = Some i).
    { assert (Y : forall j, hd_error l = Some j -> j <> y) by (intros j Hj ->; apply Nyl; destruct l; [discriminate Hj|]; injection Hj as ->; left; reflexivity).
      unfold u, ls. destruct (hd_error l) as [j|]; cbn [app happlys fold_left happly set_arr ht_table]; [rewrite nth_error_upd_neq by exact (Y j eq_refl)|]; rewrite !nth_error_upd, Nat.eqb_refl, HeB; eexists; (split; [reflexivity|]); cbn; repeat split; congruence. }
    destruct Hu as (eu & Heu & Ku & Du & Nu).
    assert (Hi : nth_error (ht_table u) i = Some (mkHE None None 0 (hd_error l) None TOMBSTONE)).
    { unfold u, ls. destruct (hd_error l) as [j|]; cbn [app happlys fold_left happly set_arr ht_table]; [rewrite nth_error_upd_neq by exact (NeR j eq_refl)|]; rewrite !nth_error_upd_neq by congruence; exact Ei. }
    assert (Cu : chain u (hd_error l) l c).
    { unfold u. apply chain_stores; [apply Sl; exact Nyl|]. unfold tR. apply chain_stores; [apply Sp; exact Nil|]. unfold tA. apply chain_stores; [apply fill_spares; exact Nyl|]. pose proof (chain_inv _ _ _ _ _ I) as C0. inversion C0 as [|? e0 ? ? ? ? H0 _ _ C1]; subst. assert (e0 = ei) by congruence. subst e0. rewrite Nei in C1. exact C1. }
    assert (Lu : length (ht_table u) = length (ht_table t)).
    { unfold u. rewrite (len_stores l) by (apply Sl; exact Nyl). unfold tR. rewrite (len_stores l) by (apply Sp; exact Nil). unfold tA. rewrite (len_stores l) by (apply fill_spares; exact Nyl). reflexivity. }
    assert (Hl : (length l + 2 <= length (ht_table t))%nat) by (pose proof (Z.div_mod (ht_size t) 2 ltac:(lia)); pose proof (Z.mod_pos_bound (ht_size t) 2 ltac:(lia)); lia).
    assert (Hd : ht_head u = Some y) by (unfold u, ls; destruct (hd_error l); reflexivity).
    unfold foreach_hash_entry. rewrite Hd, Lu. destruct (length (ht_table t)) as [|[|f]]; [lia|lia|]. cbn [foreach_loop]. rewrite Heu, Hcb. cbn [bind negb Z.eqb]. rewrite Nu. cbn [foreach_loop]. rewrite Hi, Hcb. cbn [bind negb Z.eqb he_next he_key he_data].
    rewrite (chain_note u cb Hcb l _ c Cu) by lia. rewrite Ku, Du. reflexivity.
Qed.

(** *** the removal of the latest entry has decided on the new head, an entry is added, the head is stored *)
Lemma dropped {K D hf cmp} (t : htable K D) i l k d c (a : K * D) cb : ht_inv hf cmp t (i :: l) ((k, d) :: c) -> ht_count t <= ht_size t / 2 -> lookup t k = Ok (Some i) -> (forall k d acc, cb k d acc = Ok (acc ++ [(k, d)], 0)) ->
  exists sched u y e, mix a k sched t IStart DStart = Ok (u, IDone, DDone true) /\ ht_count u = ht_count t /\
    nth_error (ht_table u) y = Some e /\ he_status e = INUSE /\ he_key e = Some (fst a) /\ he_data e = Some (snd a) /\ foreach_hash_entry (fun _ => u) cb [] = Ok (given c, 0).
Proof.
  intros I Load Lk Hcb. destruct a as [k1 d1]. cbn [fst snd]. pose proof (inv_len _ _ _ _ _ I) as Hlen. pose proof (inv_count _ _ _ _ _ I) as Hc. cbn [length] in Hc.
  pose proof (inv_nodup _ _ _ _ _ I) as ND. inversion ND as [|? ? Nil ND']; subst. pose proof (inv_links _ _ _ _ _ I) as (ei & Hei & Pei & Nei & _). pose proof (inv_head _ _ _ _ _ I) as Hh. cbn [hd_error] in Hh.
  assert (NeR : forall j, hd_error l = Some j -> j <> i) by (intros j Hj ->; apply Nil; destruct l; [discriminate Hj|]; injection Hj as ->; left; reflexivity).
  set (t1 := happlys (wipe i) t). pose proof (wipe_nth t i ei Hei) as W. fold t1 in W. rewrite Nei, Pei in W. set (e1 := mkHE None None 0 (hd_error l) None TOMBSTONE) in *.
  destruct (back_run k t1 i e1 W) as (q1 & R1). set (tD := happlys (back i e1) t1) in *.
  assert (WD : nth_error (ht_table tD) i = Some e1).
  { unfold tD, back. cbn [e1 he_next he_prev]. destruct (hd_error l) as [j|] eqn:Hj; [|exact W]. cbn [happlys fold_left happly set_arr ht_table]. rewrite nth_error_upd_neq by exact (NeR j eq_refl). exact W. }
  assert (GD : ht_head tD = Some i /\ ht_count tD = ht_count t /\ ht_size tD = ht_size t /\ ht_hashfunc tD = ht_hashfunc t) by (unfold tD, back; destruct (he_next e1); cbn; auto). destruct GD as (HD & CD & SD & FD).
  assert (SpD : Forall (spares l) (wipe i ++ back i e1)) by (apply Forall_app; split; [apply wipe_spares; exact Nil|apply back_spares]).
  assert (LD : length (ht_table tD) = length (ht_table t)) by (unfold tD, t1; rewrite <- happlys_app; apply (len_stores l); exact SpD).
  assert (R2 : dsteps 3 k (tD, DPrev i) = Ok (tD, DPub (hd_error l))).
  { cbn [dsteps dstep]. unfold at_entry. rewrite WD. cbn [bind e1 he_prev dsteps dstep]. rewrite HD, Nat.eqb_refl. cbn [bind dsteps dstep]. unfold at_entry. rewrite WD. reflexivity. }
  destruct (probe_free tD (start t (hf k1))) as (y & e & P & He & Se).
  { rewrite LD. apply (start_lt I). }
  { rewrite LD, SD. symmetry. exact Hlen. }
  { exists i, e1. split; [exact WD|]. discriminate. }
  assert (Ny : ~ In y l).
  { intros Hin. destruct (inv_in_l I y (or_intror Hin)) as ([k' d'] & _ & e' & H1 & H2 & _). destruct (entry_stores (wipe i ++ back i e1) y) with (u := t) (e := e') as (e2 & He2 & _ & _ & S2); [|exact H1|].
    - eapply Forall_impl; [|exact SpD]. intros s. apply spares_incl. intros z [<-|[]]. exact Hin.
    - rewrite happlys_app in He2. fold t1 in He2. fold tD in He2. congruence. }
  destruct (probe_run k1 d1 tD (hf k1) _ (start t (hf k1)) eq_refl (Z.to_nat (ht_size tD)) (start t (hf k1))) as (q3 & R3). rewrite P in R3.
  set (tF := happlys (fill k1 d1 (hf k1) y) tD). destruct (tie_run k1 d1 tF y) as (q4 & R4). set (tB := happlys (tie tF y) tF) in *.
  assert (Ey : exists eB, nth_error (ht_table tF) y = Some eB /\ he_key eB = Some k1 /\ he_data eB = Some d1 /\ he_status eB = INUSE) by (unfold tF; cbn [fill happlys fold_left happly set_arr ht_table]; rewrite !nth_error_upd, Nat.eqb_refl, He; eexists; repeat split; reflexivity).
  destruct Ey as (eB & HeB & KB & DB & SB).
  assert (Eu : exists eu, nth_error (ht_table tB) y = Some eu /\ he_key eu = Some k1 /\ he_data eu = Some d1 /\ he_status eu = INUSE).
  { unfold tB, tie. destruct (ht_head tF) as [h|]; cbn [app happlys fold_left happly set_arr ht_table]; rewrite !nth_error_upd, Nat.eqb_refl, HeB; [destruct (Nat.eqb h y)|]; eexists; (split; [reflexivity|]); cbn; auto. }
  destruct Eu as (eu & Heu & Ku & Du & Su).
  assert (CB : ht_count tB = ht_count t + 1) by (unfold tB, tie; rewrite <- CD; destruct (ht_head tF); reflexivity).
  set (u := happlys [SHead (hd_error l); SCount (ht_count tB - 1)] tB).
  exists (repeat false (1 + (4 + (q1 + 3))) ++ repeat true (S (q3 + (4 + q4))) ++ repeat false 3), u, y, eu. split; [|split; [|do 4 (split; [assumption|])]].
  - rewrite mix_app, (mix_rem _ _ _ t tD IStart DStart (DPub (hd_error l))). 2:{ rewrite dsteps_app. cbn [dsteps dstep]. rewrite Lk. cbn [bind]. change (dsteps (4 + (q1 + 3)) k (t, DKey i) = Ok (tD, DPub (hd_error l))). rewrite dsteps_app, wipe_run. cbn [bind]. fold t1. rewrite dsteps_app, R1. cbn [bind]. exact R2. }
    cbn [bind]. rewrite mix_app, (mix_add _ _ _ tD tB IStart IDone). 2:{ cbn [fst snd isteps]. rewrite (start_run k1 d1 t hf cmp _ _ I Load tD) by assumption. cbn [bind]. rewrite isteps_app, R3. cbn [bind]. rewrite isteps_app, fill_run. cbn [bind]. exact R4. }
    reflexivity.
  - unfold u. cbn [happlys fold_left happly ht_count]. lia.
  - assert (Cu : chain u (hd_error l) l c).
    { apply (chain_table tB); [reflexivity|]. unfold tB. apply chain_stores; [apply tie_spares; exact Ny|]. unfold tF. apply chain_stores; [apply fill_spares; exact Ny|]. unfold tD, t1. rewrite <- happlys_app. apply chain_stores; [exact SpD|]. pose proof (chain_inv _ _ _ _ _ I) as C0. inversion C0 as [|? e0 ? ? ? ? H0 _ _ C1]; subst. assert (e0 = ei) by congruence. subst e0. rewrite Nei in C1. exact C1. }
    assert (Lu : length (ht_table u) = length (ht_table t)).
    { change (length (ht_table tB) = length (ht_table t)). unfold tB. rewrite (len_stores l) by (apply tie_spares; exact Ny). unfold tF. rewrite (len_stores l) by (apply fill_spares; exact Ny). exact LD. }
    unfold foreach_hash_entry. change (ht_head u) with (hd_error l). rewrite (chain_note u cb Hcb l _ c Cu); [reflexivity|]. rewrite Lu. pose proof (Z.div_mod (ht_size t) 2 ltac:(lia)). pose proof (Z.mod_pos_bound (ht_size t) 2 ltac:(lia)). lia.
Qed.

(** *** every interleaving: no crash, and both return *)
Section NoCrash.
Context {K D : Type} (hf : K -> Z) (cmp : K -> K -> Z) (n : nat) (c0 : Z).
Context (Hn : (0 < n)%nat) (Hc : 0 <= c0) (HG : c0 + 1 <= Z.of_nat n / 2).
Notation tbl := (htable K D).
Definition keyed (u : tbl) (p : ipc) : Prop :=
  ht_keycmp u = Some cmp /\ (forall i e, nth_error (ht_table u) i = Some e -> he_status e = INUSE -> he_key e <> None) /\
  match p with IData _ i | IHash _ i | IStatus i => forall e, nth_error (ht_table u) i = Some e -> he_key e <> None | _ => True end.
Definition rinv (u : tbl) (p : ipc) (q : dpc) : Prop :=
  match q with
  | DStart => keyed u p
  | DKey i | DData i | DHash i | DStat i | DNext i | DNextP i _ | DBack i _ _ | DPrev i | DPrevN i _ | DForth i _ _ | DHead i | DHeadN i => (i < n)%nat
  | DDec m => m <= c0 + 1
  | DPub _ | DCount | DDone _ => True
  end.
Definition rank (q : dpc) : nat :=
  match q with
  | DStart => 16 | DKey _ => 15 | DData _ => 14 | DHash _ => 13 | DStat _ => 12 | DNext _ => 11 | DNextP _ _ => 10 | DBack _ _ _ => 9
  | DPrev _ => 8 | DPrevN _ _ => 7 | DForth _ _ _ => 6 | DHead _ => 5 | DHeadN _ => 4 | DPub _ => 3 | DCount => 2 | DDec _ => 1 | DDone _ => 0
  end.
Lemma keyed_step k d (u u' : tbl) p p' : glob hf n c0 u p IStart -> keyed u p -> istep k d (u, p) = Ok (u', p') -> keyed u' p'.
Proof.
  intros (A & B & C & E & _) (Kc & Ki & Kp) St. destruct p; cbn [istep over] in *.
  - rewrite grow_size_ok in St by (rewrite ?A; lia). cbn [bind] in St. rewrite Z.eqb_refl in St. cbn [bind] in St. rewrite C in St. destruct (ht_size u =? 0); [discriminate St|]. injection St as <- <-. repeat split; auto.
  - destruct (nth_error (ht_table u) i) as [e|]; [|discriminate St]. destruct (he_status e); injection St as <- <-; [repeat split; auto..|]. destruct (Nat.eqb _ s); repeat split; auto.
  - injection St as <- <-. split; [exact Kc|]. cbn [happly set_arr ht_table]. split; [intros j e|intros e]; rewrite nth_error_upd.
    + destruct (Nat.eqb i j); [|apply Ki]. destruct (nth_error (ht_table u) j) as [e0|]; [|discriminate]. intros H _. injection H as <-. discriminate.
    + rewrite Nat.eqb_refl. destruct (nth_error (ht_table u) i) as [e0|]; [|discriminate]. intros H. injection H as <-. discriminate.
  - injection St as <- <-. split; [exact Kc|]. cbn [happly set_arr ht_table]. split; [intros j e|intros e]; rewrite nth_error_upd.
    + destruct (Nat.eqb i j); [|apply Ki]. destruct (nth_error (ht_table u) j) as [e0|] eqn:H0; [|discriminate]. intros H S. injection H as <-. exact (Ki j e0 H0 S).
    + rewrite Nat.eqb_refl. destruct (nth_error (ht_table u) i) as [e0|] eqn:H0; [|discriminate]. intros H. injection H as <-. exact (Kp e0 eq_refl).
  - injection St as <- <-. split; [exact Kc|]. cbn [happly set_arr ht_table]. split; [intros j e|intros e]; rewrite nth_error_upd.
    + destruct (Nat.eqb i j); [|apply Ki]. destruct (nth_error (ht_table u) j) as [e0|] eqn:H0; [|discriminate]. intros H S. injection H as <-. exact (Ki j e0 H0 S).
    + rewrite Nat.eqb_refl. destruct (nth_error (ht_table u) i) as [e0|] eqn:H0; [|discriminate]. intros H. injection H as <-. exact (Kp e0 eq_refl).
  - injection St as <- <-. split; [exact Kc|]. cbn [happly set_arr ht_table]. split; [|exact Logic.I]. intros j e. rewrite nth_error_upd. destruct (Nat.eqb_spec i j) as [<-|]; [|apply Ki]. destruct (nth_error (ht_table u) i) as [e0|] eqn:H0; [|discriminate]. intros H S. injection H as <-. exact (Kp e0 eq_refl).
  - injection St as <- <-. repeat split; auto.
  - injection St as <- <-. split; [exact Kc|]. cbn [happly set_arr ht_table]. split; [|exact Logic.I]. intros j e. rewrite nth_error_upd. destruct (Nat.eqb i j); [|apply Ki]. destruct (nth_error (ht_table u) j) as [e0|] eqn:H0; [|discriminate]. intros H S. injection H as <-. exact (Ki j e0 H0 S).
  - injection St as <- <-. split; [exact Kc|]. cbn [happly set_arr ht_table]. split; [|exact Logic.I]. intros j e. rewrite nth_error_upd. destruct (Nat.eqb i j); [|apply Ki]. destruct (nth_error (ht_table u) j) as [e0|] eqn:H0; [|discriminate]. intros H S. injection H as <-. exact (Ki j e0 H0 S).
  - injection St as <- <-. destruct (ht_head u); repeat split; auto.
  - injection St as <- <-. split; [exact Kc|]. cbn [happly set_arr ht_table]. split; [|exact Logic.I]. intros j e. rewrite nth_error_upd. destruct (Nat.eqb h j); [|apply Ki]. destruct (nth_error (ht_table u) j) as [e0|] eqn:H0; [|discriminate]. intros H S. injection H as <-. exact (Ki j e0 H0 S).
  - injection St as <- <-. repeat split; auto.
  - injection St as <- <-. repeat split; auto.
  - injection St as <- <-. repeat split; auto.
  - injection St as <- <-. repeat split; auto.
Qed.
(** a lookup while an entry is being filled in *)
Lemma loop_total (tb : list (hentry K D)) k h s : length tb = n -> (forall i e, nth_error tb i = Some e -> he_status e = INUSE -> he_key e <> None) -> (s < n)%nat ->
  forall f dd, (f + dd = n)%nat -> (dd < n)%nat -> exists r, lookup_loop f tb n cmp k h (HashProofs.slot n s dd) s = Ok r.
Proof.
  intros Lt Ki Hs. induction f as [|f IH]; intros dd Hf Hd; [lia|]. cbn [lookup_loop]. destruct (nth_error_lt_Some tb (HashProofs.slot n s dd)) as [e He]; [rewrite Lt; apply slot_lt; assumption|]. rewrite He.
  assert (Ag : exists r, (let index' := if Nat.eqb (S (HashProofs.slot n s dd)) n then O else S (HashProofs.slot n s dd) in if Nat.eqb index' s then Ok None else lookup_loop f tb n cmp k h index' s) = Ok r).
  { cbn zeta. destruct (Nat.eq_dec (S dd) n) as [L|L]; [rewrite slot_step_last, Nat.eqb_refl by auto; eauto|]. rewrite slot_step by lia. destruct (Nat.eqb _ s); [eauto|]. apply IH; lia. }
  destruct (he_status e) eqn:Se; cbn [bind]; [eauto|exact Ag|]. destruct (he_hash e =? h); cbn [bind]; [|exact Ag]. destruct (he_key e) eqn:Ke; cbn [bind]; [|destruct (Ki _ _ He Se Ke)]. destruct (cmp k0 k =? 0); [eauto|exact Ag].
Qed.
Lemma glob_set (u u' : tbl) p : glob hf n c0 u p IStart -> ht_size u' = ht_size u -> length (ht_table u') = length (ht_table u) -> ht_hashfunc u' = ht_hashfunc u -> ht_count u' <= c0 + over p -> glob hf n c0 u' p IStart.
Proof. intros (A & B & C & E & F & G) S1 S2 S3 S4. unfold glob. rewrite S1, S2, S3. cbn [over] in *. repeat split; auto. lia. Qed.
Lemma rem_step k (u : tbl) p q : glob hf n c0 u p IStart -> rinv u p q -> exists u' q', dstep k (u, q) = Ok (u', q') /\ glob hf n c0 u' p IStart /\ rinv u' p q' /\ (rank q' <= Nat.pred (rank q))%nat.
Proof.
  intros G R. pose proof G as (A & B & C & E & _). cbn [over] in E. assert (Op : 0 <= over p <= 1) by (destruct p; cbn; lia).
  assert (At : forall X i (f : hentry K D -> X), (i < n)%nat -> exists e, at_entry u i f = Ok (u, f e)) by (intros X i f Hi; destruct (nth_error_lt_Some (ht_table u) i) as [e He]; [lia|]; exists e; unfold at_entry; rewrite He; reflexivity).
  destruct q; cbn [dstep rinv] in *.
  - destruct R as (Kc & Ki & _). assert (L : exists r, lookup u k = Ok r).
    { unfold lookup. rewrite C, Kc. destruct (Z.eqb_spec (ht_size u) 0); [lia|]. cbn zeta. rewrite A, Nat2Z.id. set (s := Z.to_nat (u64 (hf k) mod Z.of_nat n)). assert (Hs : (s < n)%nat) by (subst s; pose proof (Z.mod_pos_bound (u64 (hf k)) (Z.of_nat n) ltac:(lia)); lia).
      destruct (loop_total (ht_table u) k (hf k) s B Ki Hs n 0) as (r & Hr); [lia|lia|]. rewrite slot_0 in Hr by exact Hs. eauto. }
    destruct L as (r & L). rewrite L. cbn [bind]. eexists _, _. split; [reflexivity|]. split; [exact G|]. destruct r as [i|]; cbn [rinv rank]; [|split; [exact Logic.I|lia]]. split; [|lia]. apply lookup_in in L. apply nth_error_Some in L. lia.
  - eexists _, _. split; [reflexivity|]. split; [eapply glob_set; eauto; cbn; rewrite ?upd_length; auto; lia|]. cbn; split; auto; lia.
  - eexists _, _. split; [reflexivity|]. split; [eapply glob_set; eauto; cbn; rewrite ?upd_length; auto; lia|]. cbn; split; auto; lia.
  - eexists _, _. split; [reflexivity|]. split; [eapply glob_set; eauto; cbn; rewrite ?upd_length; auto; lia|]. cbn; split; auto; lia.
  - eexists _, _. split; [reflexivity|]. split; [eapply glob_set; eauto; cbn; rewrite ?upd_length; auto; lia|]. cbn; split; auto; lia.
  - destruct (At _ i (fun e => match he_next e with None => DPrev i | Some nx => DNextP i nx end) R) as (e & ->). eexists _, _. split; [reflexivity|]. split; [exact G|]. destruct (he_next e); cbn; split; auto; lia.
  - destruct (At _ i (fun e => DBack i nx (he_prev e)) R) as (e & ->). eexists _, _. split; [reflexivity|]. split; [exact G|]. cbn; split; auto; lia.
  - eexists _, _. split; [reflexivity|]. split; [eapply glob_set; eauto; cbn; rewrite ?upd_length; auto; lia|]. cbn; split; auto; lia.
  - destruct (At _ i (fun e => match he_prev e with None => DHead i | Some pv => DPrevN i pv end) R) as (e & ->). eexists _, _. split; [reflexivity|]. split; [exact G|]. destruct (he_prev e); cbn; split; auto; lia.
  - destruct (At _ i (fun e => DForth i pv (he_next e)) R) as (e & ->). eexists _, _. split; [reflexivity|]. split; [exact G|]. cbn; split; auto; lia.
  - eexists _, _. split; [reflexivity|]. split; [eapply glob_set; eauto; cbn; rewrite ?upd_length; auto; lia|]. cbn; split; auto; lia.
  - eexists _, _. split; [reflexivity|]. split; [exact G|]. destruct (ht_head u) as [h|]; [destruct (Nat.eqb h i)|]; cbn; split; auto; lia.
  - destruct (At _ i (fun e => DPub (he_next e)) R) as (e & ->). eexists _, _. split; [reflexivity|]. split; [exact G|]. cbn; split; auto; lia.
  - eexists _, _. split; [reflexivity|]. split; [eapply glob_set; eauto; cbn; auto; lia|]. cbn; split; auto; lia.
  - eexists _, _. split; [reflexivity|]. split; [exact G|]. cbn; split; lia.
  - eexists _, _. split; [reflexivity|]. split; [eapply glob_set; eauto; cbn; auto; lia|]. cbn; split; auto; lia.
  - eexists _, _. split; [reflexivity|]. split; [exact G|]. cbn; split; auto; lia.
Qed.
Lemma mix_ok (a : K * D) k sched : forall u p q r, glob hf n c0 u p IStart -> tinv n r p -> rinv u p q ->
  exists u' p' q', mix a k sched u p q = Ok (u', p', q') /\ tinv n (r + length (filter (fun x => x) sched)) p' /\ (rank q' <= rank q - length (filter negb sched))%nat.
Proof.
  induction sched as [|x sched IH]; intros u p q r G T R; cbn [mix filter length].
  - exists u, p, q. rewrite Nat.add_0_r. split; [reflexivity|]. split; [exact T|lia].
  - destruct x; cbn [negb].
    + destruct (glob_step hf n c0 Hn HG (fst a) (snd a) u p IStart r G T) as (u1 & p1 & E1 & G1 & T1). assert (R1 : rinv u1 p1 q) by (destruct q; try exact R; exact (keyed_step _ _ _ _ _ _ G R E1)). rewrite E1. cbn [bind length].
      destruct (IH u1 p1 q (S r) G1 T1 R1) as (u' & p' & q' & E & X & Y). exists u', p', q'. rewrite Nat.add_succ_r. auto.
    + destruct (rem_step k u p q G R) as (u1 & q1 & -> & G1 & R1 & Hr). cbn [bind length]. destruct (IH u1 p q1 r G1 T R1) as (u' & p' & q' & E & X & Y). exists u', p', q'. split; [exact E|]. split; [exact X|]. lia.
Qed.
End NoCrash.
Lemma mix_safe {K D hf cmp} (t : htable K D) l c (a : K * D) k sched : ht_inv hf cmp t l c -> ht_count t + 1 <= ht_size t / 2 ->
  exists u p q, mix a k sched t IStart DStart = Ok (u, p, q) /\ (Z.to_nat (ht_size t) + 12 < length (filter (fun x => x) sched) -> p = IDone)%nat /\ (16 <= length (filter negb sched) -> exists b, q = DDone b)%nat.
Proof.
  intros I HG. pose proof (inv_pos _ _ _ _ _ I). pose proof (inv_len _ _ _ _ _ I) as Hl. pose proof (inv_count _ _ _ _ _ I).
  destruct (mix_ok hf cmp (length (ht_table t)) (ht_count t) ltac:(lia) ltac:(rewrite Hl; exact HG) a k sched t IStart DStart 0) as (u & p & q & E & T1 & T2).
  - unfold glob. cbn [over]. repeat split; auto; [exact (inv_hf _ _ _ _ _ I)|lia|intros m Hm; discriminate Hm|intros m Hm; discriminate Hm].
  - reflexivity.
  - split; [exact (inv_cmp _ _ _ _ _ I)|]. split; [|exact Logic.I]. intros i e He Se Ke. pose proof (inv_inuse _ _ _ _ _ I i e He Se) as Hin. destruct (inv_in_l I i Hin) as ([k' d'] & _ & e' & H1 & _ & K1 & _). congruence.
  - exists u, p, q. split; [exact E|]. rewrite <- Hl, Nat2Z.id. split; intros L; [exact (tinv_done _ _ _ T1 L)|]. cbn [rank] in T2. destruct q; cbn [rank] in T2; try lia. eauto.
Qed.
