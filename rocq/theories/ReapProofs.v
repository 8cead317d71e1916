(** Two removals at the same time. *)
From Verif Require Import Base ListFacts HashModel HashProofs SpecHash HashTrace HashMoments SpecMoments MomentProofs CostProofs RaceModel WalkModel WalkProofs DuelModel DuelProofs TugModel TugProofs ReapModel.

Section Runs.
Context {K D : Type} (k1 k2 : K).
Lemma reap_app s1 s2 : forall (u : htable K D) p q, reap k1 k2 (s1 ++ s2) u p q = (do ' (u1, p1, q1) <- reap k1 k2 s1 u p q; reap k1 k2 s2 u1 p1 q1).
Proof. induction s1 as [|[|] s1 IH]; intros u p q; cbn [app reap bind]; [reflexivity| |]; destruct (dstep _ _) as [[? ?]|]; cbn [bind]; auto. Qed.
Lemma reap_one n : forall (u u' : htable K D) p p' q, dsteps n k1 (u, p) = Ok (u', p') -> reap k1 k2 (repeat true n) u p q = Ok (u', p', q).
Proof. induction n as [|n IH]; intros u u' p p' q E; cbn [dsteps repeat reap] in *; [injection E as <- <-; reflexivity|]. destruct (dstep _ _) as [[u1 p1]|]; cbn [bind] in *; [auto|discriminate E]. Qed.
Lemma reap_two n : forall (u u' : htable K D) p q q', dsteps n k2 (u, q) = Ok (u', q') -> reap k1 k2 (repeat false n) u p q = Ok (u', p, q').
Proof. induction n as [|n IH]; intros u u' p q q' E; cbn [dsteps repeat reap] in *; [injection E as <- <-; reflexivity|]. destruct (dstep _ _) as [[u1 p1]|]; cbn [bind] in *; [auto|discriminate E]. Qed.
End Runs.

(** what a search finds *)
Lemma loop_hit K D (tb : list (hentry K D)) n cmp k h s fuel : forall j i, lookup_loop fuel tb n cmp k h j s = Ok (Some i) ->
  exists e k', nth_error tb i = Some e /\ he_status e = INUSE /\ he_hash e = h /\ he_key e = Some k' /\ cmp k' k = 0.
Proof.
  induction fuel as [|fuel IH]; intros j i L; cbn [lookup_loop] in L; [discriminate L|]. destruct (nth_error tb j) as [e|] eqn:Hj; [|discriminate L].
  assert (Ag : (let index' := if Nat.eqb (S j) n then O else S j in if Nat.eqb index' s then Ok None else lookup_loop fuel tb n cmp k h index' s) = Ok (Some i) -> exists e k', nth_error tb i = Some e /\ he_status e = INUSE /\ he_hash e = h /\ he_key e = Some k' /\ cmp k' k = 0) by (cbv zeta; destruct (Nat.eqb _ s); [discriminate|apply IH]).
  destruct (he_status e) eqn:Se; cbn [bind] in L; [discriminate L|exact (Ag L)|]. destruct (Z.eqb_spec (he_hash e) h) as [Hh|]; cbn [bind] in L; [|exact (Ag L)]. destruct (he_key e) as [k'|] eqn:Ke; cbn [bind] in L; [|discriminate L].
  destruct (Z.eqb_spec (cmp k' k) 0) as [Hk|]; [|exact (Ag L)]. injection L as <-. exists e, k'. auto.
Qed.
(** the same search after the key of that entry has been cleared *)
Lemma loop_cleared K D (tb : list (hentry K D)) n cmp k h s i f : (forall e, he_status (f e) = he_status e /\ he_hash (f e) = he_hash e /\ he_key (f e) = None) ->
  forall fuel j, lookup_loop fuel tb n cmp k h j s = Ok (Some i) -> lookup_loop fuel (upd tb i f) n cmp k h j s = Fault NullDeref.
Proof.
  intros Hf. induction fuel as [|fuel IH]; intros j L; [discriminate L|]. destruct (loop_hit _ _ _ _ _ _ _ _ _ _ _ L) as (ei & ki & Hi & Si & Hhi & Ki & Ci). cbn [lookup_loop] in *. rewrite nth_error_upd. destruct (Nat.eqb_spec i j) as [<-|N].
  - rewrite Hi. cbn. destruct (Hf ei) as (F1 & F2 & F3). rewrite F1, F2, F3, Si, Hhi, Z.eqb_refl. reflexivity.
  - destruct (nth_error tb j) as [e|] eqn:Hj; [|discriminate L].
    assert (Ag : (let index' := if Nat.eqb (S j) n then O else S j in if Nat.eqb index' s then Ok None else lookup_loop fuel tb n cmp k h index' s) = Ok (Some i) -> (let index' := if Nat.eqb (S j) n then O else S j in if Nat.eqb index' s then Ok None else lookup_loop fuel (upd tb i f) n cmp k h index' s) = Fault NullDeref) by (cbv zeta; destruct (Nat.eqb _ s); [discriminate|apply IH]).
    destruct (he_status e) eqn:Se; cbn [bind] in *; [discriminate L|exact (Ag L)|]. destruct (he_hash e =? h); cbn [bind] in *; [|exact (Ag L)]. destruct (he_key e) as [k'|]; cbn [bind] in *; [|discriminate L]. destruct (cmp k' k =? 0); [congruence|exact (Ag L)].
Qed.
Lemma lookup_cleared K D (t : htable K D) k i : lookup t k = Ok (Some i) -> lookup (happly t (SKey i None)) k = Fault NullDeref.
Proof.
  unfold lookup. cbn [happly set_arr ht_hashfunc ht_keycmp ht_size ht_table]. destruct (ht_hashfunc t) as [hf|]; [|discriminate]. destruct (ht_keycmp t) as [cmp|]; [|discriminate]. destruct (ht_size t =? 0); [discriminate|]. cbv zeta. apply loop_cleared. intros e. auto.
Qed.
Lemma lookup_hit K D (t : htable K D) hf k i : ht_hashfunc t = Some hf -> lookup t k = Ok (Some i) -> exists e, nth_error (ht_table t) i = Some e /\ he_status e = INUSE /\ he_hash e = hf k.
Proof.
  unfold lookup. intros ->. destruct (ht_keycmp t) as [cmp|]; [|discriminate]. destruct (ht_size t =? 0); [discriminate|]. cbv zeta. intros L. destruct (loop_hit _ _ _ _ _ _ _ _ _ _ _ L) as (e & k' & A & B & C & _). eauto.
Qed.
(** *** one key, two removals *)
Lemma reap_crash K D (t : htable K D) k i : lookup t k = Ok (Some i) -> reap k k [true; true; false] t DStart DStart = Fault NullDeref.
Proof. intros L. cbn [reap dstep]. rewrite L. cbn [bind reap dstep]. rewrite (lookup_cleared _ _ _ _ _ L). reflexivity. Qed.
Lemma drop_count {K D} (u : htable K D) i e : ht_count (happlys (drop u i e) u) = ht_count u - 1.
Proof. unfold drop. rewrite !happlys_app. reflexivity. Qed.
Lemma drop_size {K D} (u : htable K D) i e : ht_size (happlys (drop u i e) u) = ht_size u.
Proof. unfold drop, back, forth, unhead. destruct (he_next e), (he_prev e), (ht_head u) as [h|]; try destruct (Nat.eqb h i); reflexivity. Qed.
Lemma grow64_never fuel : forall s, 0 <= s < 2 ^ 64 -> grow64 fuel (u64 (-1)) s = Fault NoTermination.
Proof.
  induction fuel as [|fuel IH]; intros s Hs; cbn [grow64]; [reflexivity|]. assert (L : s / 2 < 2 ^ 63) by (apply Z.div_lt_upper_bound; lia). change (u64 (-1)) with (2 ^ 64 - 1) in *. destruct (Z.ltb_spec (s / 2) (2 ^ 64 - 1)); [|lia]. apply IH. apply Z.mod_pos_bound. lia.
Qed.
Lemma drop_inuse {K D} (u : htable K D) i e : nth_error (ht_table u) i = Some e -> he_status e <> INUSE -> inuse_slots (happlys (drop u i e) u) = inuse_slots u.
Proof.
  intros He Se. unfold drop. rewrite happlys_app. assert (Pl : Forall plain (back i e ++ forth i e ++ unhead u i e ++ [SCount (ht_count u - 1)])).
  { unfold back, forth, unhead. repeat (apply Forall_app; split); [destruct (he_next e)|destruct (he_prev e)|destruct (ht_head u) as [h|]; [destruct (Nat.eqb h i)|]|]; repeat constructor. }
  rewrite (plains_inuse _ Pl). unfold wipe. change [SKey i None; SData i None; SHash i 0; SStatus i TOMBSTONE] with ([SKey i None; SData i None; SHash i 0] ++ [SStatus i TOMBSTONE] : list (hstore K D)). rewrite happlys_app.
  assert (P3 : Forall (@plain K D) [SKey i None; SData i None; SHash i 0]) by (repeat constructor). rewrite <- (plains_inuse _ P3 u). set (u1 := happlys [SKey i None; SData i None; SHash i 0] u).
  assert (H1 : exists e1, nth_error (ht_table u1) i = Some e1 /\ he_status e1 = he_status e) by (unfold u1; cbn [happlys fold_left happly set_arr ht_table]; rewrite !nth_error_upd, Nat.eqb_refl, He; eexists; split; reflexivity).
  destruct H1 as (e1 & He1 & Se1). rewrite <- Se1 in Se. cbn [happlys fold_left happly]. unfold inuse_slots. cbn [set_arr ht_table]. f_equal. apply filt_same. intros x Hx. assert (x = e1) by congruence. subst x. cbn. destruct (he_status e1); congruence.
Qed.
Lemma plain_status {K D} (l : list (hstore K D)) : Forall plain l -> forall u i e, nth_error (ht_table u) i = Some e -> exists e', nth_error (ht_table (happlys l u)) i = Some e' /\ he_status e' = he_status e.
Proof.
  induction 1 as [|s l P _ IH]; intros u i e He; [exists e; auto|]. change (happlys (s :: l) u) with (happlys l (happly u s)).
  assert (X : exists e1, nth_error (ht_table (happly u s)) i = Some e1 /\ he_status e1 = he_status e).
  { destruct s; cbn [plain] in P; try contradiction P; cbn [happly set_arr ht_table]; rewrite ?nth_error_upd, ?He; try (exists e; auto; fail). all: match goal with |- context [Nat.eqb ?a ?b] => destruct (Nat.eqb a b) end; cbn; eexists; split; reflexivity. }
  destruct X as (e1 & H1 & S1). destruct (IH _ i e1 H1) as (e2 & H2 & S2). exists e2. split; [exact H2|congruence].
Qed.
Lemma drop_plain {K D} (u : htable K D) i e : Forall plain (back i e ++ forth i e ++ unhead u i e ++ [SCount (ht_count u - 1)]).
Proof. unfold back, forth, unhead. repeat (apply Forall_app; split); [destruct (he_next e)|destruct (he_prev e)|destruct (ht_head u) as [h|]; [destruct (Nat.eqb h i)|]|]; repeat constructor. Qed.
Lemma drop_status {K D} (u : htable K D) i e : nth_error (ht_table u) i = Some e -> exists e', nth_error (ht_table (happlys (drop u i e) u)) i = Some e' /\ he_status e' = TOMBSTONE.
Proof. intros He. unfold drop. rewrite happlys_app. exact (plain_status _ (drop_plain u i e) _ _ _ (wipe_nth u i e He)). Qed.
Lemma removefrom_drop {K D} (t : htable K D) k i e : lookup t k = Ok (Some i) -> nth_error (ht_table t) i = Some e -> exists b, removefrom_hashtable t k = Ok (happlys (drop t i e) t, b).
Proof. intros L He. pose proof (remove_stores_ok t k) as S. unfold remove_stores in S. rewrite L in S. cbn [bind] in S. rewrite He in S. exact S. Qed.
Lemma reap_twice {K D hf cmp} (t : htable K D) l c k i : ht_inv hf cmp t l c -> lookup t k = Ok (Some i) ->
  exists sched u, reap k k sched t DStart DStart = Ok (u, DDone true, DDone true) /\ inuse_slots u = inuse_slots t - 1 /\ ht_count u = ht_count t - 2 /\ ht_size u = ht_size t.
Proof.
  intros I Lk. destruct (nth_error (ht_table t) i) as [e|] eqn:He; [|destruct (lookup_in _ _ _ _ _ Lk He)]. destruct (drop_run k t i e He) as (q1 & R1). destruct (removefrom_drop t k i e Lk He) as (b & Er). destruct (drop_status t i e He) as (e1 & He1 & Se1).
  pose proof (drop_count t i e) as Ct. set (t1 := happlys (drop t i e) t) in *. destruct (drop_run k t1 i e1 He1) as (q2 & R2).
  exists (repeat true 1 ++ repeat false 1 ++ repeat true q1 ++ repeat false q2), (happlys (drop t1 i e1) t1). split; [|split; [|split]].
  - rewrite reap_app, (reap_one _ _ 1 t t DStart (DKey i)) by (cbn [dsteps dstep]; rewrite Lk; reflexivity). cbn [bind]. rewrite reap_app, (reap_two _ _ 1 t t (DKey i) DStart (DKey i)) by (cbn [dsteps dstep]; rewrite Lk; reflexivity). cbn [bind].
    rewrite reap_app, (reap_one _ _ q1 t t1 (DKey i) (DDone true)) by exact R1. cbn [bind]. apply reap_two. exact R2.
  - rewrite drop_inuse by (auto; congruence). destruct (remove_spec t l c k I) as [(t' & l1 & j & l2 & c1 & k' & d' & c2 & ej & E2 & _ & _ & _ & _ & I' & _)|[E2 N]].
    + assert (t' = t1) by congruence. subst t'. rewrite (inuse_count I'), (inuse_count I). exact Ct.
    + exfalso. destruct (lookup_spec t l c k I) as [(j & ej & k' & dt & L & Hj & Sj & Kj & _ & M)|[L _]]; [|congruence]. pose proof (inv_inuse _ _ _ _ _ I j ej Hj Sj) as Hin. destruct (inv_in_l I j Hin) as ([k2 d2] & Hc & e2 & H2 & _ & K2 & _). cbn [fst] in K2. assert (k2 = k') by congruence. subst k2. exact (N k' d2 Hc M).
  - rewrite drop_count. lia.
  - rewrite drop_size. unfold t1. apply drop_size.
Qed.

(** *** two neighbours *)
Lemma second_lookup {K D hf cmp} (t : htable K D) i j l k d k2 d2 c : ht_inv hf cmp t (i :: j :: l) ((k, d) :: (k2, d2) :: c) -> match_key hf cmp k2 k2 -> (forall k', In k' (k :: map fst c) -> ~ match_key hf cmp k' k2) -> lookup t k2 = Ok (Some j).
Proof.
  intros I Mk Oth. destruct (lookup_spec t _ _ k2 I) as [(j' & e & k' & dt & L & He & Se & Ke & _ & M)|[_ N]]; [|destruct (N k2 d2 (or_intror (or_introl eq_refl)) Mk)].
  pose proof (inv_cont _ _ _ _ _ I) as Fa. inversion Fa as [|? ? ? ? Hi Fa1]; subst. inversion Fa1 as [|? ? ? ? Hj Fa2]; subst.
  destruct (inv_inuse _ _ _ _ _ I j' e He Se) as [<-|[<-|Hl]]; [|exact L|].
  - destruct Hi as (e2 & He2 & _ & K2 & _). cbn [fst] in K2. assert (k' = k) by congruence. subst k'. destruct (Oth k (or_introl eq_refl) M).
  - destruct (Forall2_In_l _ _ _ _ Fa2 Hl) as ([k3 d3] & Hin & e2 & He2 & _ & K2 & _). cbn [fst] in K2. assert (k3 = k') by congruence. subst k3. destruct (Oth k'); [right; apply in_map_iff; exists (k', d3); auto|exact M].
Qed.
Lemma reap_ghost {K D hf cmp} (t : htable K D) i j l k d k2 d2 c cb : ht_inv hf cmp t (i :: j :: l) ((k, d) :: (k2, d2) :: c) -> lookup t k = Ok (Some i) -> lookup t k2 = Ok (Some j) -> (forall k d acc, cb k d acc = Ok (acc ++ [(k, d)], 0)) ->
  exists sched u, reap k k2 sched t DStart DStart = Ok (u, DDone true, DDone true) /\ ht_count u = ht_count t - 2 /\ foreach_hash_entry (fun _ => u) cb [] = Ok ((None, None) :: given c, 0).
Proof.
  intros I Lk Lk2 Hcb. pose proof (inv_len _ _ _ _ _ I) as Hlen. pose proof (inv_count _ _ _ _ _ I) as Hc. cbn [length] in Hc. pose proof (inv_pos _ _ _ _ _ I) as Hp. pose proof (inv_load _ _ _ _ _ I) as Load.
  pose proof (inv_nodup _ _ _ _ _ I) as ND. inversion ND as [|? ? Nil ND']; subst. inversion ND' as [|? ? Njl _]; subst. pose proof (inv_links _ _ _ _ _ I) as (ei & Hei & Pei & Nei & ej & Hej & Pej & Nej & _). cbn [hd_error] in Nei. pose proof (inv_head _ _ _ _ _ I) as Hh. cbn [hd_error] in Hh.
  assert (Nij : j <> i) by (intros ->; apply Nil; left; reflexivity). assert (Ni : ~ In i l) by (intros X; apply Nil; right; exact X).
  assert (Nx : forall x, hd_error l = Some x -> x <> j) by (intros x Hx ->; apply Njl; destruct l; [discriminate Hx|]; injection Hx as ->; left; reflexivity).
  set (t1 := happlys (wipe i) t). pose proof (wipe_nth t i ei Hei) as W. fold t1 in W. rewrite Nei, Pei in W. set (e1 := mkHE None None 0 (Some j) None TOMBSTONE) in *.
  set (tD := happly t1 (SPrev j None)).
  assert (WD : nth_error (ht_table tD) i = Some e1) by (unfold tD; cbn [happly set_arr ht_table]; rewrite nth_error_upd_neq by exact Nij; exact W).
  assert (R1 : dsteps 6 k (t1, DNext i) = Ok (tD, DPub (Some j))).
  { cbn [dsteps dstep]. unfold at_entry at 1. rewrite W. cbn [bind e1 he_next dsteps dstep]. unfold at_entry at 1. rewrite W. cbn [bind e1 he_prev dsteps dstep]. fold tD. unfold at_entry at 1. rewrite WD. cbn [bind e1 he_prev dsteps dstep]. change (ht_head tD) with (ht_head t). rewrite Hh, Nat.eqb_refl. cbn [bind dsteps dstep]. unfold at_entry. rewrite WD. reflexivity. }
  assert (JD : exists e2, nth_error (ht_table tD) j = Some e2 /\ he_next e2 = hd_error l /\ he_prev e2 = None).
  { unfold tD, t1. cbn [wipe happlys fold_left happly set_arr ht_table]. rewrite nth_error_upd, Nat.eqb_refl. rewrite !nth_error_upd_neq by congruence. rewrite Hej. eexists. split; [reflexivity|]. cbn. auto. }
  destruct JD as (e2 & HeD & N2 & P2). destruct (drop_run k2 tD j e2 HeD) as (q2 & R2). pose proof (drop_count tD j e2) as Ct. set (tB := happlys (drop tD j e2) tD) in *.
  assert (Ed : drop tD j e2 = wipe j ++ back j e2 ++ [SCount (ht_count t - 1)]).
  { unfold drop, forth, unhead. rewrite P2. change (ht_head tD) with (ht_head t). rewrite Hh. destruct (Nat.eqb_spec i j); [congruence|]. reflexivity. }
  set (u := happlys [SHead (Some j); SCount (ht_count tB - 1)] tB).
  exists (repeat true 1 ++ repeat false 1 ++ repeat true (4 + 6) ++ repeat false q2 ++ repeat true 3), u. split; [|split].
  - rewrite reap_app, (reap_one _ _ 1 t t DStart (DKey i)) by (cbn [dsteps dstep]; rewrite Lk; reflexivity). cbn [bind]. rewrite reap_app, (reap_two _ _ 1 t t (DKey i) DStart (DKey j)) by (cbn [dsteps dstep]; rewrite Lk2; reflexivity). cbn [bind].
    rewrite reap_app, (reap_one _ _ _ t tD (DKey i) (DPub (Some j))) by (rewrite dsteps_app, wipe_run; cbn [bind]; fold t1; exact R1). cbn [bind]. rewrite reap_app, (reap_two _ _ q2 tD tB _ (DKey j) (DDone true)) by exact R2. reflexivity.
  - unfold u. cbn [happlys fold_left happly ht_count]. rewrite Ct. change (ht_count tD) with (ht_count t). lia.
  - assert (Hj : nth_error (ht_table u) j = Some (mkHE None None 0 (hd_error l) None TOMBSTONE)).
    { change (ht_table u) with (ht_table tB). unfold tB. rewrite Ed, !happlys_app. cbn [happlys fold_left happly ht_table]. pose proof (wipe_nth tD j e2 HeD) as W2. rewrite N2, P2 in W2. unfold back. rewrite N2. destruct (hd_error l) as [x|] eqn:Hx; [|exact W2]. cbn [happlys fold_left happly set_arr ht_table]. rewrite nth_error_upd_neq by exact (Nx x eq_refl). exact W2. }
    assert (SpB : Forall (spares l) (drop tD j e2)) by (rewrite Ed; apply Forall_app; split; [apply wipe_spares; exact Njl|]; apply Forall_app; split; [apply back_spares|repeat constructor]).
    assert (SpD : Forall (spares l) (wipe i ++ [SPrev j None] : list (hstore K D))) by (apply Forall_app; split; [apply wipe_spares; exact Ni|constructor; [exact Logic.I|constructor]]).
    assert (TD : tD = happlys (wipe i ++ [SPrev j None]) t) by (rewrite happlys_app; reflexivity).
    assert (Cu : chain u (hd_error l) l c).
    { apply (chain_table tB); [reflexivity|]. unfold tB. apply chain_stores; [exact SpB|]. rewrite TD. apply chain_stores; [exact SpD|]. pose proof (chain_inv _ _ _ _ _ I) as C0. inversion C0 as [|? e0 ? ? ? ? H0 _ _ C1]; subst. assert (e0 = ei) by congruence. subst e0. rewrite Nei in C1. inversion C1 as [|? e3 ? ? ? ? H3 _ _ C2]; subst. assert (e3 = ej) by congruence. subst e3. rewrite Nej in C2. exact C2. }
    assert (Lu : length (ht_table u) = length (ht_table t)).
    { change (length (ht_table tB) = length (ht_table t)). unfold tB. rewrite (len_stores l) by exact SpB. rewrite TD. apply (len_stores l). exact SpD. }
    assert (Hl : (length l + 1 <= length (ht_table t))%nat) by (pose proof (Z.div_mod (ht_size t) 2 ltac:(lia)); pose proof (Z.mod_pos_bound (ht_size t) 2 ltac:(lia)); lia).
    unfold foreach_hash_entry. change (ht_head u) with (Some j). rewrite Lu. destruct (length (ht_table t)) as [|f]; [lia|]. cbn [foreach_loop]. rewrite Hj, Hcb. cbn [bind negb Z.eqb he_next he_key he_data]. rewrite (chain_note u cb Hcb l _ c Cu) by lia. reflexivity.
Qed.

(** *** keys with different hash values: no crash in any interleaving *)
Section NoCrash.
Context {K D : Type} (hf : K -> Z) (cmp : K -> K -> Z) (n : nat) (Hn : (0 < n)%nat).
Notation tbl := (htable K D).
Definition frame (u : tbl) : Prop := ht_size u = Z.of_nat n /\ length (ht_table u) = n /\ ht_hashfunc u = Some hf /\ ht_keycmp u = Some cmp.
(** a search for [k] meets no cleared entry that it would compare *)
Definition clear_of (k : K) (u : tbl) : Prop := forall i e, nth_error (ht_table u) i = Some e -> he_status e = INUSE -> he_key e = None -> he_hash e <> hf k.
Definition own (k : K) (u : tbl) (q : dpc) : Prop :=
  match q with
  | DStart => clear_of k u
  | DKey i | DData i | DHash i => (i < n)%nat /\ forall e, nth_error (ht_table u) i = Some e -> he_hash e = hf k
  | DStat i | DNext i | DNextP i _ | DBack i _ _ | DPrev i | DPrevN i _ | DForth i _ _ | DHead i | DHeadN i => (i < n)%nat
  | DPub _ | DCount | DDec _ | DDone _ => True
  end.
Lemma loop_clear (tb : list (hentry K D)) k s : length tb = n -> (forall i e, nth_error tb i = Some e -> he_status e = INUSE -> he_key e = None -> he_hash e <> hf k) -> (s < n)%nat ->
  forall f dd, (f + dd = n)%nat -> (dd < n)%nat -> exists r, lookup_loop f tb n cmp k (hf k) (HashProofs.slot n s dd) s = Ok r.
Proof.
  intros Lt Ki Hs. induction f as [|f IH]; intros dd Hf Hd; [lia|]. cbn [lookup_loop]. destruct (nth_error_lt_Some tb (HashProofs.slot n s dd)) as [e He]; [rewrite Lt; apply slot_lt; assumption|]. rewrite He.
  assert (Ag : exists r, (let index' := if Nat.eqb (S (HashProofs.slot n s dd)) n then O else S (HashProofs.slot n s dd) in if Nat.eqb index' s then Ok None else lookup_loop f tb n cmp k (hf k) index' s) = Ok r).
  { cbn zeta. destruct (Nat.eq_dec (S dd) n) as [L|L]; [rewrite slot_step_last, Nat.eqb_refl by auto; eauto|]. rewrite slot_step by lia. destruct (Nat.eqb _ s); [eauto|]. apply IH; lia. }
  destruct (he_status e) eqn:Se; cbn [bind]; [eauto|exact Ag|]. destruct (Z.eqb_spec (he_hash e) (hf k)) as [Hh|]; cbn [bind]; [|exact Ag]. destruct (he_key e) eqn:Ke; cbn [bind]; [|destruct (Ki _ _ He Se Ke Hh)]. destruct (cmp k0 k =? 0); [eauto|exact Ag].
Qed.
(** stores to links and to fields the other thread's search does not look at *)
Lemma own_upd k (u u' : tbl) q i f : ht_table u' = upd (ht_table u) i f -> (forall e, he_hash (f e) = he_hash e) -> (forall e, nth_error (ht_table u) i = Some e -> he_status (f e) = INUSE -> he_key (f e) = None -> he_hash e <> hf k \/ he_status e = INUSE /\ he_key e = None) -> own k u q -> own k u' q.
Proof.
  intros E Hh Hk O.
  assert (A : forall j, (forall e, nth_error (ht_table u) j = Some e -> he_hash e = hf k) -> forall e, nth_error (ht_table u') j = Some e -> he_hash e = hf k).
  { intros j H e. rewrite E, nth_error_upd. destruct (Nat.eqb i j); [|apply H]. destruct (nth_error (ht_table u) j) as [e0|] eqn:H0; [|discriminate]. intros X. injection X as <-. rewrite Hh. auto. }
  destruct q; cbn [own] in *; auto; try (destruct O as [O1 O2]; split; [exact O1|apply A; exact O2]).
  intros j e. rewrite E, nth_error_upd. destruct (Nat.eqb_spec i j) as [<-|]; [|apply O]. destruct (nth_error (ht_table u) i) as [e0|] eqn:H0; [|discriminate]. intros X Se Ke. injection X as <-. rewrite Hh. destruct (Hk e0 eq_refl Se Ke) as [Y|[S0 K0]]; [exact Y|]. exact (O i e0 H0 S0 K0).
Qed.
Lemma own_table k (u u' : tbl) q : ht_table u' = ht_table u -> own k u q -> own k u' q.
Proof. intros E. destruct q; cbn [own]; unfold clear_of; rewrite ?E; auto. Qed.
Lemma own_hash k1 k2 (u : tbl) q i : hf k1 <> hf k2 -> 0 <> hf k2 -> (forall e, nth_error (ht_table u) i = Some e -> he_hash e = hf k1) -> (i < length (ht_table u))%nat -> own k2 u q -> own k2 (happly u (SHash i 0)) q.
Proof.
  intros Ne N0 H1 Hi O. destruct (nth_error_lt_Some (ht_table u) i Hi) as [ei Hei].
  assert (A : forall j, (forall e, nth_error (ht_table u) j = Some e -> he_hash e = hf k2) -> forall e, nth_error (ht_table (happly u (SHash i 0))) j = Some e -> he_hash e = hf k2).
  { intros j H e. cbn [happly set_arr ht_table]. rewrite nth_error_upd. destruct (Nat.eqb_spec i j) as [<-|]; [|apply H]. specialize (H ei Hei). specialize (H1 ei Hei). congruence. }
  destruct q; cbn [own] in *; auto; try (destruct O as [O1 O2]; split; [exact O1|apply A; exact O2]).
  intros j e. cbn [happly set_arr ht_table]. rewrite nth_error_upd. destruct (Nat.eqb_spec i j) as [<-|]; [|apply O]. rewrite Hei. intros X _ _. injection X as <-. exact N0.
Qed.
Lemma reap_step k1 k2 (u : tbl) p q : hf k1 <> hf k2 -> 0 <> hf k2 -> frame u -> own k1 u p -> own k2 u q ->
  exists u' p', dstep k1 (u, p) = Ok (u', p') /\ frame u' /\ own k1 u' p' /\ own k2 u' q /\ (rank p' <= Nat.pred (rank p))%nat.
Proof.
  intros Ne N0 Fr O1 O2. pose proof Fr as (A & B & C & Kc).
  assert (At : forall X i (f : hentry K D -> X), (i < n)%nat -> exists e, at_entry u i f = Ok (u, f e)) by (intros X i f Hi; destruct (nth_error_lt_Some (ht_table u) i) as [e He]; [lia|]; exists e; unfold at_entry; rewrite He; reflexivity).
  assert (FrU : forall i f, frame (set_arr (upd (ht_table u) i f) u)) by (intros i f; unfold frame; cbn [set_arr ht_size ht_table ht_hashfunc ht_keycmp]; rewrite upd_length; auto).
  destruct p; cbn [dstep own] in *.
  - assert (L : exists r, lookup u k1 = Ok r).
    { unfold lookup. rewrite C, Kc. destruct (Z.eqb_spec (ht_size u) 0); [lia|]. cbn zeta. rewrite A, Nat2Z.id. set (s := Z.to_nat (u64 (hf k1) mod Z.of_nat n)). assert (Hs : (s < n)%nat) by (subst s; pose proof (Z.mod_pos_bound (u64 (hf k1)) (Z.of_nat n) ltac:(lia)); lia).
      destruct (loop_clear (ht_table u) k1 s B O1 Hs n 0) as (r & Hr); [lia|lia|]. rewrite slot_0 in Hr by exact Hs. eauto. }
    destruct L as (r & L). rewrite L. cbn [bind]. eexists _, _. split; [reflexivity|]. split; [exact Fr|]. destruct r as [i|]; cbn [own rank]; [|split; [exact Logic.I|split; [exact O2|lia]]]. destruct (lookup_hit _ _ _ _ _ _ C L) as (e & He & Se & Hh). split; [|split; [exact O2|lia]]. split; [rewrite <- B; apply nth_error_Some; congruence|]. intros e' He'. congruence.
  - destruct O1 as [Hi Hh]. eexists _, _. split; [reflexivity|]. split; [apply FrU|]. split; [split; [exact Hi|]|split; [|cbn; lia]].
    + intros e. cbn [happly set_arr ht_table]. rewrite nth_error_upd, Nat.eqb_refl. destruct (nth_error (ht_table u) i) as [e0|]; [|discriminate]. intros X. injection X as <-. exact (Hh e0 eq_refl).
    + eapply own_upd; [reflexivity|reflexivity| |exact O2]. intros e He _ _. left. rewrite (Hh e He). exact Ne.
  - destruct O1 as [Hi Hh]. eexists _, _. split; [reflexivity|]. split; [apply FrU|]. split; [split; [exact Hi|]|split; [|cbn; lia]].
    + intros e. cbn [happly set_arr ht_table]. rewrite nth_error_upd, Nat.eqb_refl. destruct (nth_error (ht_table u) i) as [e0|]; [|discriminate]. intros X. injection X as <-. exact (Hh e0 eq_refl).
    + eapply own_upd; [reflexivity|reflexivity| |exact O2]. auto.
  - destruct O1 as [Hi Hh]. eexists _, _. split; [reflexivity|]. split; [apply FrU|]. split; [exact Hi|split; [|cbn; lia]]. eapply own_hash; eauto. lia.
  - eexists _, _. split; [reflexivity|]. split; [apply FrU|]. split; [exact O1|split; [|cbn; lia]]. eapply own_upd; [reflexivity|reflexivity| |exact O2]. intros e _ X. discriminate X.
  - destruct (At _ i (fun e => match he_next e with None => DPrev i | Some nx => DNextP i nx end) O1) as (e & ->). eexists _, _. split; [reflexivity|]. split; [exact Fr|]. destruct (he_next e); cbn; repeat split; auto; lia.
  - destruct (At _ i (fun e => DBack i nx (he_prev e)) O1) as (e & ->). eexists _, _. split; [reflexivity|]. split; [exact Fr|]. cbn; repeat split; auto; lia.
  - eexists _, _. split; [reflexivity|]. split; [apply FrU|]. split; [exact O1|split; [|cbn; lia]]. eapply own_upd; [reflexivity|reflexivity| |exact O2]. auto.
  - destruct (At _ i (fun e => match he_prev e with None => DHead i | Some pv => DPrevN i pv end) O1) as (e & ->). eexists _, _. split; [reflexivity|]. split; [exact Fr|]. destruct (he_prev e); cbn; repeat split; auto; lia.
  - destruct (At _ i (fun e => DForth i pv (he_next e)) O1) as (e & ->). eexists _, _. split; [reflexivity|]. split; [exact Fr|]. cbn; repeat split; auto; lia.
  - eexists _, _. split; [reflexivity|]. split; [apply FrU|]. split; [exact O1|split; [|cbn; lia]]. eapply own_upd; [reflexivity|reflexivity| |exact O2]. auto.
  - eexists _, _. split; [reflexivity|]. split; [exact Fr|]. destruct (ht_head u) as [h|]; [destruct (Nat.eqb h i)|]; cbn; repeat split; auto; lia.
  - destruct (At _ i (fun e => DPub (he_next e)) O1) as (e & ->). eexists _, _. split; [reflexivity|]. split; [exact Fr|]. cbn; repeat split; auto; lia.
  - eexists _, _. split; [reflexivity|]. split; [exact Fr|]. split; [exact Logic.I|]. split; [eapply own_table; [|exact O2]; reflexivity|cbn; lia].
  - eexists _, _. split; [reflexivity|]. split; [exact Fr|]. cbn; repeat split; auto; lia.
  - eexists _, _. split; [reflexivity|]. split; [exact Fr|]. split; [exact Logic.I|]. split; [eapply own_table; [|exact O2]; reflexivity|cbn; lia].
  - eexists _, _. split; [reflexivity|]. split; [exact Fr|]. cbn; repeat split; auto; lia.
Qed.
Lemma reap_ok k1 k2 sched : hf k1 <> hf k2 -> hf k1 <> 0 -> hf k2 <> 0 -> forall u p q, frame u -> own k1 u p -> own k2 u q ->
  exists u' p' q', reap k1 k2 sched u p q = Ok (u', p', q') /\ (rank p' <= rank p - length (filter (fun x => x) sched))%nat /\ (rank q' <= rank q - length (filter negb sched))%nat.
Proof.
  intros Ne N1 N2. induction sched as [|x sched IH]; intros u p q F O1 O2; cbn [reap filter length].
  - exists u, p, q. split; [reflexivity|]. lia.
  - destruct x; cbn [negb].
    + destruct (reap_step k1 k2 u p q Ne ltac:(congruence) F O1 O2) as (u1 & p1 & -> & F1 & P1 & Q1 & R). cbn [bind length]. destruct (IH u1 p1 q F1 P1 Q1) as (u' & p' & q' & E & X & Y). exists u', p', q'. split; [exact E|]. lia.
    + destruct (reap_step k2 k1 u q p ltac:(congruence) ltac:(congruence) F O2 O1) as (u1 & q1 & -> & F1 & Q1 & P1 & R). cbn [bind length]. destruct (IH u1 p q1 F1 P1 Q1) as (u' & p' & q' & E & X & Y). exists u', p', q'. split; [exact E|]. lia.
Qed.
End NoCrash.
Lemma reap_safe {K D hf cmp} (t : htable K D) l c k1 k2 sched : ht_inv hf cmp t l c -> hf k1 <> hf k2 -> hf k1 <> 0 -> hf k2 <> 0 ->
  exists u p q, reap k1 k2 sched t DStart DStart = Ok (u, p, q) /\ (16 <= length (filter (fun x => x) sched) -> exists b, p = DDone b)%nat /\ (16 <= length (filter negb sched) -> exists b, q = DDone b)%nat.
Proof.
  intros I Ne N1 N2. pose proof (inv_pos _ _ _ _ _ I). pose proof (inv_len _ _ _ _ _ I) as Hl.
  assert (CO : forall k, clear_of hf k t).
  { intros k i e He Se Ke. pose proof (inv_inuse _ _ _ _ _ I i e He Se) as Hin. destruct (inv_in_l I i Hin) as ([k' d'] & _ & e' & H1 & _ & K1 & _). congruence. }
  destruct (reap_ok hf cmp (length (ht_table t)) ltac:(lia) k1 k2 sched Ne N1 N2 t DStart DStart) as (u & p & q & E & A & B); [|apply CO|apply CO|].
  - split; [lia|]. split; [reflexivity|]. split; [exact (inv_hf _ _ _ _ _ I)|exact (inv_cmp _ _ _ _ _ I)].
  - exists u, p, q. split; [exact E|]. cbn [rank] in A, B. split; intros L; [destruct p; cbn [rank] in A|destruct q; cbn [rank] in B]; try lia; eauto.
Qed.
