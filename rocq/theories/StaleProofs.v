(** An addition for which the table grows, and a removal. *)
From Coq Require Import Permutation.
From Verif Require Import Base ListFacts HashModel HashProofs SpecHash HashTrace HashMoments DuelModel DuelProofs TugModel TugProofs ReapProofs StaleModel.

Section S.
Context {K D : Type} (a : K * D) (k : K).
Notation tbl := (htable K D).
Lemma outgrow_app s1 s2 : forall (u o : tbl) b p q, outgrow a k (s1 ++ s2) u o b p q = (do ' (u1, o1, b1, p1, q1) <- outgrow a k s1 u o b p q; outgrow a k s2 u1 o1 b1 p1 q1).
Proof.
  induction s1 as [|x s1 IH]; intros u o b p q; cbn [app outgrow bind]; [reflexivity|]. destruct x.
  - destruct (istep (fst a) (snd a) (u, p)) as [[u1 p1]|]; cbn [bind]; [|reflexivity]. destruct (ht_size u1 =? ht_size u); apply IH.
  - destruct b; [destruct (stale_step k u o q) as [[[u1 o1] q1]|]|destruct (dstep k (u, q)) as [[u1 q1]|]]; cbn [bind]; auto.
Qed.
(** the thread that adds, alone: only its first step can change the size *)
Lemma keep_size (u u' : tbl) p p' : p <> IStart -> istep (fst a) (snd a) (u, p) = Ok (u', p') -> ht_size u' = ht_size u /\ p' <> IStart.
Proof.
  intros N E. destruct p; cbn [istep] in E; try congruence; try (injection E as <- <-; split; [reflexivity|discriminate]).
  - destruct (nth_error (ht_table u) i) as [e|]; [|discriminate E]. destruct (he_status e); injection E as <- <-; (split; [reflexivity|]); try discriminate. destruct (Nat.eqb _ s); discriminate.
  - injection E as <- <-. split; [reflexivity|]. destruct (ht_head u); discriminate.
Qed.
Lemma outgrow_later n : forall (u u' o : tbl) b p p' q, p <> IStart -> isteps n (fst a) (snd a) (u, p) = Ok (u', p') -> outgrow a k (repeat true n) u o b p q = Ok (u', o, b, p', q) /\ ht_size u' = ht_size u.
Proof.
  induction n as [|n IH]; intros u u' o b p p' q N E; cbn [isteps repeat outgrow] in *; [injection E as <- <-; auto|].
  destruct (istep (fst a) (snd a) (u, p)) as [[u1 p1]|] eqn:E1; [|discriminate E]. cbn [bind] in *. destruct (keep_size _ _ _ _ N E1) as [Sz N1]. rewrite Sz, Z.eqb_refl. destruct (IH u1 u' o b p1 p' q N1 E) as [A B]. split; [exact A|congruence].
Qed.
Lemma outgrow_add n (t u o : tbl) b q : isteps n (fst a) (snd a) (t, IStart) = Ok (u, IDone) ->
  outgrow a k (repeat true n) t o b IStart q = Ok (if ht_size u =? ht_size t then (u, o, b, IDone, q) else (u, t, held q, IDone, q)).
Proof.
  destruct n as [|n]; [discriminate|]. cbn [isteps repeat outgrow]. destruct (istep (fst a) (snd a) (t, IStart)) as [[u1 p1]|] eqn:E1; [|discriminate]. cbn [bind]. intros E.
  assert (N1 : p1 <> IStart).
  { intros ->. cbn [istep] in E1. destruct (grow_size _ _ _); [|discriminate E1]. cbn [bind] in E1. destruct (if _ =? _ then _ else _) as [w|]; [|discriminate E1]. cbn [bind] in E1. destruct (ht_hashfunc w); [|discriminate E1]. destruct (ht_size w =? 0); discriminate E1. }
  destruct (outgrow_later n u1 u o b p1 IDone q N1 E) as [A Sz]. destruct (outgrow_later n u1 u t (held q) p1 IDone q N1 E) as [B _]. rewrite Sz. destruct (ht_size u1 =? ht_size t); assumption.
Qed.
Lemma outgrow_drop n : forall (u u' o : tbl) p q q', dsteps n k (u, q) = Ok (u', q') -> outgrow a k (repeat false n) u o false p q = Ok (u', o, false, p, q').
Proof.
  induction n as [|n IH]; intros u u' o p q q' E; cbn [dsteps repeat outgrow] in *; [injection E as <- <-; reflexivity|]. destruct (dstep k (u, q)) as [[u1 q1]|]; [|discriminate E]. cbn [bind] in *. apply IH; exact E.
Qed.
(** the removal in the array given back: the table itself keeps everything but its count *)
Definition adrift (i : nat) (now0 now old : tbl) (q : dpc) : Prop :=
  (exists e, nth_error (ht_table old) i = Some e /\ (match q with DKey _ | DData _ | DHash _ | DStat _ => True | _ => he_status e = TOMBSTONE end)) /\
  match q with
  | DKey j | DData j | DHash j | DStat j | DNext j | DNextP j _ | DBack j _ _ | DPrev j | DPrevN j _ | DForth j _ _ | DHead j => j = i /\ now = now0
  | DCount => now = now0
  | DDec n => now = now0 /\ n = ht_count now0
  | DDone b => b = true /\ now = happly now0 (SCount (ht_count now0 - 1))
  | DStart | DHeadN _ | DPub _ => False
  end.
Lemma adrift_upd i (old : tbl) j f (X : hentry K D -> Prop) (Y : hentry K D -> Prop) : (exists e, nth_error (ht_table old) i = Some e /\ X e) -> (forall e, X e -> Y e) -> (forall e, X e -> Y (f e)) ->
  exists e, nth_error (ht_table (set_arr (upd (ht_table old) j f) old)) i = Some e /\ Y e.
Proof.
  intros (e & He & Hx) A B. cbn [set_arr ht_table]. rewrite nth_error_upd. destruct (Nat.eqb j i); rewrite He; cbn [option_map]; eexists; (split; [reflexivity|]); auto.
Qed.
Lemma adrift_step i now0 now old q : adrift i now0 now old q -> exists now' old' q', stale_step k now old q = Ok (now', old', q') /\ adrift i now0 now' old' q' /\ (rank q' <= Nat.pred (rank q))%nat.
Proof.
  intros [(e & He & Hs) A]. destruct q; try contradiction A; cbn [stale_step dstep] in *; match type of A with _ /\ _ => destruct A as [-> ->] | _ => idtac end; unfold at_entry; rewrite ?He; cbn [bind].
  1-3: eexists _, _, _; (split; [reflexivity|]); (split; [|cbn; lia]); (split; [|auto]); eapply adrift_upd with (X := fun _ => True); eauto.
  - eexists _, _, _. split; [reflexivity|]. split; [|cbn; lia]. split; [|auto]. exists (set_status TOMBSTONE e). cbn [happly set_arr ht_table]. rewrite nth_error_upd, Nat.eqb_refl, He. split; reflexivity.
  - eexists _, _, _. split; [reflexivity|]. destruct (he_next e); (split; [|cbn; lia]); (split; [|auto]); eauto.
  - eexists _, _, _. split; [reflexivity|]. split; [|cbn; lia]. split; [|auto]. eauto.
  - eexists _, _, _. split; [reflexivity|]. split; [|cbn; lia]. split; [|auto]. eapply adrift_upd with (X := fun e => he_status e = TOMBSTONE); eauto.
  - eexists _, _, _. split; [reflexivity|]. destruct (he_prev e); (split; [|cbn; lia]); (split; [|auto]); eauto.
  - eexists _, _, _. split; [reflexivity|]. split; [|cbn; lia]. split; [|auto]. eauto.
  - eexists _, _, _. split; [reflexivity|]. split; [|cbn; lia]. split; [|auto]. eapply adrift_upd with (X := fun e => he_status e = TOMBSTONE); eauto.
  - eexists _, _, _. split; [reflexivity|]. split; [|cbn; lia]. split; [|reflexivity]. eauto.
  - subst now. eexists _, _, _. split; [reflexivity|]. split; [|cbn; lia]. split; [|auto]. eauto.
  - eexists _, _, _. split; [reflexivity|]. split; [|cbn; lia]. split; [|auto]. eauto.
  - eexists _, _, _. split; [reflexivity|]. split; [|cbn; lia]. split; [|auto]. eauto.
Qed.
Lemma adrift_run i now0 p n : forall now old q, adrift i now0 now old q -> (rank q <= n)%nat ->
  exists old' e, outgrow a k (repeat false n) now old true p q = Ok (happly now0 (SCount (ht_count now0 - 1)), old', true, p, DDone true) /\ nth_error (ht_table old') i = Some e /\ he_status e = TOMBSTONE.
Proof.
  induction n as [|n IH]; intros now old q A R; cbn [repeat outgrow].
  - destruct q; cbn [rank] in R; try lia. destruct A as [(e & He & Hs) [-> ->]]. exists old, e. auto.
  - destruct (adrift_step _ _ _ _ _ A) as (now1 & old1 & q1 & -> & A1 & R1). cbn [bind]. apply IH; [exact A1|lia].
Qed.
End S.
Lemma lost {K D hf cmp} (t : htable K D) l c (a : K * D) k i u : ht_inv hf cmp t l c -> ht_size t / 2 < ht_count t -> lookup t k = Ok (Some i) -> addto_hashtable t (fst a) (snd a) = Ok u ->
  forall o, exists sched old e, outgrow a k sched t o false IStart DStart = Ok (happly u (SCount (ht_count u - 1)), old, true, IDone, DDone true) /\ nth_error (ht_table old) i = Some e /\ he_status e = TOMBSTONE.
Proof.
  intros I HG L E o. destruct (addto_spec t l c (fst a) (snd a) I) as (u' & l' & c' & E' & _ & _ & _ & Gr). rewrite E in E'. injection E' as <-. specialize (Gr HG). pose proof (inv_pos _ _ _ _ _ I).
  destruct (addto_run K D t (fst a) (snd a)) as (n & Hn); [rewrite E; discriminate|]. rewrite E in Hn.
  destruct (lookup_spec t l c k I) as [(i' & e & _ & _ & L' & He & _)|[L' _]]; [|congruence]. assert (i' = i) by congruence. subst i'.
  destruct (adrift_run a k i u IDone 15 u t (DKey i)) as (old & e' & R & X); [split; [exists e; auto|auto]|cbn; lia|].
  exists ([false] ++ repeat true n ++ repeat false 15), old, e'. split; [|exact X]. rewrite outgrow_app. cbn [outgrow dstep]. rewrite L. cbn [bind]. rewrite outgrow_app, (outgrow_add a k n t u o false (DKey i) Hn). destruct (Z.eqb_spec (ht_size u) (ht_size t)); [lia|]. cbn [bind held]. exact R.
Qed.
Lemma serial_add {K D} (t u v : htable K D) (a : K * D) k b o : addto_hashtable t (fst a) (snd a) = Ok u -> removefrom_hashtable u k = Ok (v, b) ->
  exists sched o', outgrow a k sched t o false IStart DStart = Ok (v, o', false, IDone, DDone b).
Proof.
  intros E R. destruct (addto_run K D t (fst a) (snd a)) as (n & Hn); [rewrite E; discriminate|]. rewrite E in Hn. destruct (remove_run K D u k) as (m & Hm). rewrite R in Hm.
  exists (repeat true n ++ repeat false m). pose proof (outgrow_add a k n t u o false DStart Hn) as A. cbn [held] in A. destruct (ht_size u =? ht_size t); eexists; rewrite outgrow_app, A; cbn [bind]; apply outgrow_drop; exact Hm.
Qed.
Lemma serial_drop {K D} (t u v : htable K D) (a : K * D) k b o : removefrom_hashtable t k = Ok (u, b) -> addto_hashtable u (fst a) (snd a) = Ok v ->
  exists sched o', outgrow a k sched t o false IStart DStart = Ok (v, o', false, IDone, DDone b).
Proof.
  intros R E. destruct (addto_run K D u (fst a) (snd a)) as (n & Hn); [rewrite E; discriminate|]. rewrite E in Hn. destruct (remove_run K D t k) as (m & Hm). rewrite R in Hm.
  exists (repeat false m ++ repeat true n). pose proof (outgrow_add a k n u v o false (DDone b) Hn) as A. cbn [held] in A. destruct (ht_size v =? ht_size u); eexists; rewrite outgrow_app, (outgrow_drop a k m t u o IStart DStart (DDone b) Hm); cbn [bind]; exact A.
Qed.
(** the removal of the latest entry has decided on the new head when the table grows *)
Lemma loose {K D hf cmp} (t : htable K D) i j l k kd c (a : K * D) o : ht_inv hf cmp t (i :: j :: l) (kd :: c) -> ht_size t / 2 < ht_count t -> lookup t k = Ok (Some i) ->
  exists sched u old e, outgrow a k sched t o false IStart DStart = Ok (u, old, true, IDone, DPub (Some j)) /\ nth_error (ht_table old) j = Some e /\ he_status e = INUSE /\ ht_size u = 2 * ht_size t /\ ht_size old = ht_size t.
Proof.
  intros I HG Lk. pose proof (inv_pos _ _ _ _ _ I) as Hp. pose proof (inv_load _ _ _ _ _ I) as Hl. pose proof (inv_count _ _ _ _ _ I) as Hc.
  pose proof (inv_nodup _ _ _ _ _ I) as ND. inversion ND as [|? ? Nil _]; subst. assert (Nj : j <> i) by (intros ->; apply Nil; left; reflexivity).
  pose proof (inv_links _ _ _ _ _ I) as (ei & Hei & Pei & Nei & _). cbn [hd_error] in Nei. pose proof (inv_head _ _ _ _ _ I) as Hh. cbn [hd_error] in Hh.
  set (t1 := happlys (wipe i) t). pose proof (wipe_nth t i ei Hei) as W. fold t1 in W. rewrite Nei, Pei in W. set (e1 := mkHE None None 0 (Some j) None TOMBSTONE) in *.
  set (h := happly t1 (SPrev j None)).
  assert (Wh : nth_error (ht_table h) i = Some e1) by (unfold h; cbn [happly set_arr ht_table]; rewrite nth_error_upd_neq by exact Nj; exact W).
  assert (R : dsteps 11 k (t, DStart) = Ok (h, DPub (Some j))).
  { change 11%nat with (1 + (4 + (3 + 3)))%nat. rewrite dsteps_app. cbn [dsteps dstep]. rewrite Lk. cbn [bind]. change (dsteps (4 + (3 + 3)) k (t, DKey i) = Ok (h, DPub (Some j))). rewrite dsteps_app, wipe_run. cbn [bind]. fold t1. rewrite dsteps_app. cbn [dsteps dstep]. unfold at_entry. rewrite W. cbn [bind e1 he_next dsteps dstep]. unfold at_entry. rewrite W. cbn [bind e1 he_prev dsteps dstep]. fold h.
    unfold at_entry. rewrite Wh. cbn [bind e1 he_prev dsteps dstep]. assert (Hh' : ht_head h = Some i) by exact Hh. rewrite Hh', Nat.eqb_refl. cbn [bind dsteps dstep]. unfold at_entry. rewrite Wh. reflexivity. }
  destruct (removefrom_drop t k i ei Lk Hei) as (b & Er). set (t' := happlys (drop t i ei) t) in *.
  assert (Tb : ht_table t' = ht_table h /\ ht_hashfunc t' = ht_hashfunc h /\ ht_keycmp t' = ht_keycmp h).
  { unfold t', drop, back, forth, unhead. rewrite Nei, Pei, Hh, Nat.eqb_refl. split; [|split]; reflexivity. }
  destruct Tb as (Tb & Tf & Tk).
  assert (I' : exists l' c', ht_inv hf cmp t' l' c' /\ Z.of_nat (length c') < ht_count t).
  { destruct (remove_spec t _ _ k I) as [(t2 & l1 & i2 & l2 & c1 & k' & d' & c2 & e2 & E2 & El & Ec & _ & _ & I2 & _)|[E2 N]].
    - rewrite Er in E2. injection E2 as <- _. exists (l1 ++ l2), (c1 ++ c2). split; [exact I2|]. rewrite (inv_count_c I), Ec, !app_length. cbn [length]. lia.
    - destruct (lookup_spec t _ _ k I) as [(i2 & e2 & k' & dt & L2 & He2 & Se2 & Ke2 & De2 & M2)|[L2 _]]; [|congruence]. pose proof (inv_inuse _ _ _ _ _ I i2 e2 He2 Se2) as Hin. destruct (inv_in_l I i2 Hin) as ([k3 d3] & Hcd & e3 & H3 & _ & K3 & _). cbn in K3. assert (k3 = k') by congruence. subst k3. destruct (N k' d3 Hcd M2). }
  destruct I' as (l' & c' & I' & Lc).
  assert (Gs : grow_size (S (S (Z.to_nat (ht_count h)))) (ht_count h) (ht_size h) = Ok (2 * ht_size t)).
  { change (ht_count h) with (ht_count t). change (ht_size h) with (ht_size t). assert (0 <= ht_size t / 2) by (apply Z.div_pos; lia). destruct (grow_size_spec (S (S (Z.to_nat (ht_count t)))) (ht_count t) (ht_size t)) as (ns & E & F1 & _ & [->|[_ ->]]); [lia|lia|lia|lia|exact E]. }
  assert (D2 : 2 * ht_size t / 2 = ht_size t) by (rewrite Z.mul_comm; apply Z.div_mul; lia). assert (H2 : ht_size t / 2 < ht_size t) by (apply Z.div_lt; lia).
  destruct (grow_spec t' l' c' (2 * ht_size t) I') as (u1 & l1 & c1 & G1 & I1 & Pm & S1); [lia|rewrite (inv_count_c I'); lia|].
  assert (Gh : grow_hashtable h (2 * ht_size t) = Ok u1) by (rewrite <- G1; unfold grow_hashtable; rewrite Tb, Tf, Tk; reflexivity).
  destruct (insert_spec u1 l1 c1 (fst a) (snd a) I1) as (u & y & Ei & _ & Su); [rewrite (inv_count_c I1), <- (Permutation_length Pm), S1; lia|].
  assert (Ea : addto_hashtable h (fst a) (snd a) = Ok u).
  { unfold addto_hashtable. rewrite Gs. cbn [bind]. change (ht_size h) with (ht_size t). destruct (Z.eqb_spec (2 * ht_size t) (ht_size t)); [lia|]. rewrite Gh. cbn [bind]. rewrite (inv_hf _ _ _ _ _ I1), Ei. reflexivity. }
  destruct (addto_run K D h (fst a) (snd a)) as (n & Hn); [rewrite Ea; discriminate|]. rewrite Ea in Hn.
  destruct (inv_in_l I j (or_intror (or_introl eq_refl))) as (kd' & _ & ej & Hj & Sj & _).
  exists (repeat false 11 ++ repeat true n), u, h, (set_prev None ej). split; [|split; [|split; [exact Sj|split; [lia|reflexivity]]]].
  - rewrite outgrow_app, (outgrow_drop a k 11 t h o IStart DStart (DPub (Some j)) R). cbn [bind]. rewrite (outgrow_add a k n h u o false (DPub (Some j)) Hn). change (ht_size h) with (ht_size t). destruct (Z.eqb_spec (ht_size u) (ht_size t)); [lia|]. reflexivity.
  - unfold h, t1. cbn [happlys fold_left wipe happly set_arr ht_table]. rewrite !nth_error_upd, Nat.eqb_refl. destruct (Nat.eqb_spec i j); [congruence|]. rewrite Hj. reflexivity.
Qed.
