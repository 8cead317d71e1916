(** Removals with their search access by access. *)
From Verif Require Import Base ListFacts HashModel HashProofs SpecHash HashTrace HashMoments SpecMoments MomentProofs CostProofs RaceModel WalkModel WalkProofs DuelModel DuelProofs TugModel TugProofs ReapModel ReapProofs SeekModel.

(** *** one thread alone *)
Lemma ssteps_app {K D} (k : K) a b (x : htable K D * spc D) : ssteps (a + b) k x = (do y <- ssteps a k x; ssteps b k y).
Proof. revert x. induction a as [|a IH]; intros x; cbn [plus ssteps bind]; [reflexivity|]. destruct (sstep k x); cbn [bind]; auto. Qed.
Lemma ssteps_one {K D} (k : K) n (x y : htable K D * spc D) : sstep k x = Ok y -> ssteps (S n) k x = ssteps n k y.
Proof. intros E. cbn [ssteps]. rewrite E. reflexivity. Qed.
Lemma gone_steps {K D} (k : K) n : forall (x : htable K D * dpc), ssteps n k (fst x, Gone (snd x)) = match dsteps n k x with Ok (u, q) => Ok (u, Gone q) | Fault f => Fault f end.
Proof.
  induction n as [|n IH]; intros [u q]; cbn [ssteps dsteps fst snd]; [reflexivity|]. cbn [sstep]. destruct (dstep k (u, q)) as [[u1 q1]|f]; cbn [bind]; [exact (IH (u1, q1))|reflexivity].
Qed.
Lemma seek_loop {K D} (k : K) cmp h (u : htable K D) s n : ht_keycmp u = Some cmp -> n = Z.to_nat (ht_size u) ->
  forall f j, lookup_loop f (ht_table u) n cmp k h j s <> Fault NoTermination -> exists q, ssteps q k (u, Seek (RStatus h j s)) =
    match lookup_loop f (ht_table u) n cmp k h j s with Ok (Some i) => Ok (u, Gone (DKey i)) | Ok None => Ok (u, Gone (DDone false)) | Fault x => Fault x end.
Proof.
  intros C En. induction f as [|f IH]; intros j NT; [destruct NT; reflexivity|]. cbn [lookup_loop] in *. destruct (nth_error (ht_table u) j) as [e|] eqn:He; [|exists 1%nat; cbn; rewrite He; reflexivity].
  set (again := match he_status e with EMPTY => Ok None | _ => let index' := if Nat.eqb (S j) n then O else S j in if Nat.eqb index' s then Ok None else lookup_loop f (ht_table u) n cmp k h index' s end) in *.
  assert (Ag : again <> Fault NoTermination -> exists q, ssteps q k (u, Seek (RAgain h j s)) = match again with Ok (Some i) => Ok (u, Gone (DKey i)) | Ok None => Ok (u, Gone (DDone false)) | Fault x => Fault x end).
  { intros NA. destruct (he_status e) eqn:Se; [exists 1%nat; cbn; rewrite He, Se; reflexivity| |].
    all: assert (S1 : sstep k (u, Seek (RAgain h j s)) = Ok (u, Seek (RNext h j s))) by (cbn [sstep rstep]; rewrite He, Se; reflexivity); unfold again in *; cbv zeta in *; set (i' := if Nat.eqb (S j) n then O else S j) in *.
    all: destruct (Nat.eqb i' s) eqn:Ei; [exists 2%nat; rewrite (ssteps_one _ _ _ _ S1); cbn [ssteps sstep rstep]; rewrite <- En; fold i'; rewrite Ei; reflexivity|].
    all: destruct (IH i' NA) as (q & Hq); exists (S (S q)); rewrite (ssteps_one _ _ _ _ S1); cbn [ssteps sstep rstep]; rewrite <- En; fold i'; rewrite Ei; exact Hq. }
  destruct (he_status e) eqn:Se; cbn [bind] in *.
  - destruct (Ag NT) as (q & Hq). exists (S q). rewrite (ssteps_one _ _ _ (u, Seek (RAgain h j s))) by (cbn [sstep rstep]; rewrite He, Se; reflexivity). exact Hq.
  - destruct (Ag NT) as (q & Hq). exists (S q). rewrite (ssteps_one _ _ _ (u, Seek (RAgain h j s))) by (cbn [sstep rstep]; rewrite He, Se; reflexivity). exact Hq.
  - assert (S1 : sstep k (u, Seek (RStatus h j s)) = Ok (u, Seek (RHash h j s))) by (cbn [sstep rstep]; rewrite He, Se; reflexivity). destruct (he_hash e =? h) eqn:Eh; cbn [bind] in *.
    + assert (S2 : sstep k (u, Seek (RHash h j s)) = Ok (u, Seek (RKey h j s))) by (cbn [sstep rstep]; rewrite He, Eh; reflexivity). destruct (he_key e) as [k'|] eqn:Ek; cbn [bind] in *.
      * destruct (cmp k' k =? 0) eqn:Ec; [exists 3%nat; rewrite (ssteps_one _ _ _ _ S1), (ssteps_one _ _ _ _ S2); cbn [ssteps sstep rstep]; rewrite He, C, Ek, Ec; reflexivity|].
        destruct (Ag NT) as (q & Hq). exists (S (S (S q))). rewrite (ssteps_one _ _ _ _ S1), (ssteps_one _ _ _ _ S2), (ssteps_one _ _ _ (u, Seek (RAgain h j s))) by (cbn [sstep rstep]; rewrite He, C, Ek, Ec; reflexivity). exact Hq.
      * exists 3%nat. rewrite (ssteps_one _ _ _ _ S1), (ssteps_one _ _ _ _ S2). cbn [ssteps sstep rstep]. rewrite He, C, Ek. reflexivity.
    + destruct (Ag NT) as (q & Hq). exists (S (S q)). rewrite (ssteps_one _ _ _ _ S1), (ssteps_one _ _ _ (u, Seek (RAgain h j s))) by (cbn [sstep rstep]; rewrite He, Eh; reflexivity). exact Hq.
Qed.
Lemma seek_lookup {K D} (k : K) (u : htable K D) : ht_keycmp u <> None -> lookup u k <> Fault NoTermination ->
  exists q, ssteps q k (u, Seek RStart) = match lookup u k with Ok (Some i) => Ok (u, Gone (DKey i)) | Ok None => Ok (u, Gone (DDone false)) | Fault x => Fault x end.
Proof.
  intros Hc. destruct (ht_keycmp u) as [cmp|] eqn:C; [clear Hc|congruence]. unfold lookup. rewrite C. destruct (ht_hashfunc u) as [hf|] eqn:Hh; [|intros _; exists 1%nat; cbn; rewrite Hh; reflexivity].
  destruct (ht_size u =? 0) eqn:Z0; [intros _; exists 1%nat; cbn; rewrite Hh, Z0; reflexivity|]. cbv zeta. intros NT. destruct (seek_loop k cmp (hf k) u _ _ C eq_refl _ _ NT) as (q & Hq). exists (S q). cbn [ssteps sstep rstep]. rewrite Hh, Z0. exact Hq.
Qed.
Lemma seek_run {K D} (k : K) (t : htable K D) : ht_keycmp t <> None -> lookup t k <> Fault NoTermination ->
  exists q, ssteps q k (t, Seek RStart) = match removefrom_hashtable t k with Ok (t', b) => Ok (t', Gone (DDone b)) | Fault f => Fault f end.
Proof.
  intros Hc NT. destruct (seek_lookup k t Hc NT) as (q1 & R1). pose proof (remove_stores_ok t k) as Rs. destruct (lookup t k) as [[i|]|f] eqn:L.
  - destruct (nth_error (ht_table t) i) as [e|] eqn:He; [|destruct (lookup_in _ _ _ _ _ L He)]. destruct (drop_run k t i e He) as (q2 & R2). exists (q1 + q2)%nat. rewrite ssteps_app, R1. cbn [bind]. pose proof (gone_steps k q2 (t, DKey i)) as G. cbn [fst snd] in G. rewrite G, R2.
    destruct (removefrom_drop t k i e L He) as (b & Er). pose proof Er as Eb. unfold removefrom_hashtable in Eb. rewrite L in Eb. cbn [bind] in Eb. rewrite He in Eb. injection Eb as _ <-. rewrite Er. reflexivity.
  - exists q1. rewrite R1. unfold removefrom_hashtable. rewrite L. reflexivity.
  - exists q1. rewrite R1. unfold removefrom_hashtable. rewrite L. reflexivity.
Qed.

(** *** every interleaving with an addition *)
Section Add.
Context {K D : Type} (hf : K -> Z) (cmp : K -> K -> Z) (n : nat) (c0 : Z).
Context (Hn : (0 < n)%nat) (Hc : 0 <= c0) (HG : c0 + 1 <= Z.of_nat n / 2).
Notation tbl := (htable K D).
Definition has_key (u : tbl) (i : nat) : Prop := forall e, nth_error (ht_table u) i = Some e -> he_key e <> None.
(** index [i] is the [dd]th tried; at least [x] more steps than five per slot left *)
Definition place (m : nat) (i s x : nat) : Prop := (s < n)%nat /\ exists dd, (dd < n)%nat /\ i = HashProofs.slot n s dd /\ (5 * (n - dd) + x <= m)%nat.
Definition sinv (m : nat) (u : tbl) (p : ipc) (x : spc D) : Prop :=
  match x with
  | Seek RStart => keyed cmp u p /\ (5 * n + 17 <= m)%nat
  | Seek (RStatus _ i s) => keyed cmp u p /\ place m i s 16
  | Seek (RHash _ i s) => keyed cmp u p /\ place m i s 15 /\ has_key u i
  | Seek (RKey _ i s) => keyed cmp u p /\ place m i s 14 /\ has_key u i
  | Seek (RAgain _ i s) => keyed cmp u p /\ place m i s 13
  | Seek (RNext _ i s) => keyed cmp u p /\ place m i s 12
  | Seek _ => False
  | Gone DStart => False
  | Gone q => rinv cmp n c0 u p q /\ (rank q <= m)%nat
  end.
Lemma key_upd (u u' : tbl) i f j : ht_table u' = upd (ht_table u) i f -> (forall e, he_key e <> None -> he_key (f e) <> None) -> has_key u j -> has_key u' j.
Proof. intros E Hf H e. rewrite E, nth_error_upd. destruct (Nat.eqb i j); [|apply H]. destruct (nth_error (ht_table u) j) as [e0|] eqn:H0; [|discriminate]. intros X. injection X as <-. apply Hf. exact (H e0 H0). Qed.
Lemma key_step k d (u u' : tbl) p p' i : glob hf n c0 u p IStart -> istep k d (u, p) = Ok (u', p') -> has_key u i -> has_key u' i.
Proof.
  intros (A & B & C & E & _) St H. destruct p; cbn [istep over] in *; try (injection St as <- <-; first [exact H|eapply key_upd; [reflexivity| |exact H]; intros e0 X; first [exact X|discriminate]]).
  - rewrite grow_size_ok in St by (rewrite ?A; lia). cbn [bind] in St. rewrite Z.eqb_refl in St. cbn [bind] in St. rewrite C in St. destruct (ht_size u =? 0); [discriminate St|]. injection St as <- <-. exact H.
  - destruct (nth_error (ht_table u) i0) as [e|]; [|discriminate St]. destruct (he_status e); injection St as <- <-; exact H.
Qed.
Lemma sinv_add k d m (u u' : tbl) p p' x : glob hf n c0 u p IStart -> istep k d (u, p) = Ok (u', p') -> sinv m u p x -> sinv m u' p' x.
Proof.
  intros G St S. destruct x as [pc|q].
  - destruct pc; cbn [sinv] in *; try contradiction S; [destruct S as [S1 S2]; split; [eapply keyed_step; eauto|exact S2]|destruct S as [S1 S2]; split; [eapply keyed_step; eauto|exact S2]| | |destruct S as [S1 S2]; split; [eapply keyed_step; eauto|exact S2]|destruct S as [S1 S2]; split; [eapply keyed_step; eauto|exact S2]].
    all: destruct S as (S1 & S2 & S3); split; [eapply keyed_step; eauto|]; split; [exact S2|eapply key_step; eauto].
  - destruct q; cbn [sinv] in *; try contradiction S; exact S.
Qed.
Lemma sinv_rem k m (u : tbl) p x : glob hf n c0 u p IStart -> sinv m u p x -> exists u' x', sstep k (u, x) = Ok (u', x') /\ glob hf n c0 u' p IStart /\ sinv (Nat.pred m) u' p x'.
Proof.
  intros G Sv. pose proof G as (A & B & C & _).
  assert (At : forall i s x, place m i s x -> exists e, nth_error (ht_table u) i = Some e) by (intros i s x0 (Hs & dd & Hd & -> & _); apply nth_error_lt_Some; rewrite B; apply slot_lt; assumption).
  assert (Pl : forall i s x, place m i s (S x) -> place (Nat.pred m) i s x) by (intros i s x0 (Hs & dd & Hd & E & L); split; [exact Hs|]; exists dd; repeat split; auto; lia).
  assert (Gn : forall i s x, (15 <= x)%nat \/ (5 <= x)%nat -> place m i s x -> (10 <= m)%nat) by (intros i s x0 Hx (_ & dd & Hd & _ & L); lia).
  destruct x as [pc|q].
  - destruct pc; cbn [sinv] in Sv; try contradiction Sv; cbn [sstep rstep].
    + destruct Sv as [Ky Hm]. rewrite C. destruct (Z.eqb_spec (ht_size u) 0); [lia|]. cbn [bind]. eexists _, _. split; [reflexivity|]. split; [exact G|]. cbn [sinv]. split; [exact Ky|]. set (s := Z.to_nat (u64 (hf k) mod ht_size u)). assert (Hs : (s < n)%nat) by (subst s; pose proof (Z.mod_pos_bound (u64 (hf k)) (ht_size u) ltac:(lia)); lia). split; [exact Hs|]. exists O. rewrite slot_0 by exact Hs. repeat split; lia.
    + destruct Sv as [Ky P]. destruct (At _ _ _ P) as [e He]. rewrite He. cbn [bind]. eexists _, _. split; [reflexivity|]. split; [exact G|]. destruct (he_status e) eqn:Se; cbn [sinv].
      * split; [exact Ky|]. apply Pl. destruct P as (Hs & dd & Hd & E & L). split; [exact Hs|]. exists dd. repeat split; auto; lia.
      * split; [exact Ky|]. apply Pl. destruct P as (Hs & dd & Hd & E & L). split; [exact Hs|]. exists dd. repeat split; auto; lia.
      * split; [exact Ky|]. split; [apply Pl; exact P|]. intros e' He'. destruct Ky as (_ & Ki & _). apply (Ki i); [exact He'|congruence].
    + destruct Sv as (Ky & P & Hk). destruct (At _ _ _ P) as [e He]. rewrite He. cbn [bind]. eexists _, _. split; [reflexivity|]. split; [exact G|]. destruct (he_hash e =? h); cbn [sinv].
      * split; [exact Ky|]. split; [apply Pl; exact P|exact Hk].
      * split; [exact Ky|]. apply Pl. destruct P as (Hs & dd & Hd & E & L). split; [exact Hs|]. exists dd. repeat split; auto; lia.
    + destruct Sv as (Ky & P & Hk). destruct (At _ _ _ P) as [e He]. rewrite He. destruct Ky as (Kc & Ki & Kp). rewrite Kc. destruct (he_key e) as [k'|] eqn:Ke; [|destruct (Hk e He Ke)]. cbn [bind]. eexists _, _. split; [reflexivity|]. split; [exact G|]. destruct (cmp k' k =? 0); cbn [sinv rinv rank].
      * split; [rewrite <- B; apply nth_error_Some; congruence|]. destruct P as (_ & dd & Hd & _ & L). lia.
      * split; [split; auto|]. apply Pl. exact P.
    + destruct Sv as [Ky P]. destruct (At _ _ _ P) as [e He]. rewrite He. cbn [bind]. eexists _, _. split; [reflexivity|]. split; [exact G|]. destruct (he_status e); cbn [sinv rinv rank]; [split; [exact Logic.I|lia]|split; [exact Ky|apply Pl; exact P]..].
    + destruct Sv as [Ky (Hs & dd & Hd & -> & L)]. rewrite A, Nat2Z.id. cbn [bind]. eexists _, _. split; [reflexivity|]. split; [exact G|].
      destruct (Nat.eq_dec (S dd) n) as [Ld|Ld]; [rewrite slot_step_last, Nat.eqb_refl by auto; cbn [sinv rinv rank]; split; [exact Logic.I|lia]|]. rewrite slot_step by lia. destruct (Nat.eqb _ s); cbn [sinv rinv rank]; [split; [exact Logic.I|lia]|].
      split; [exact Ky|]. split; [exact Hs|]. exists (S dd). repeat split; lia.
  - cbn [sstep]. assert (Q : q <> DStart /\ rinv cmp n c0 u p q /\ (rank q <= m)%nat) by (destruct q; cbn [sinv] in Sv; try contradiction Sv; (split; [discriminate|exact Sv])). destruct Q as (Nq & R & Hr).
    destruct (rem_step hf cmp n c0 Hn k u p q G R) as (u' & q' & -> & G' & R' & Hr'). cbn [bind]. eexists _, _. split; [reflexivity|]. split; [exact G'|]. assert (Nq' : q' <> DStart) by (intros ->; cbn [rank] in Hr'; destruct q; cbn [rank] in Hr'; try lia; congruence).
    assert (X : rinv cmp n c0 u' p q' /\ (rank q' <= Nat.pred m)%nat) by (split; [exact R'|lia]). destruct q'; cbn [sinv]; try exact X. congruence.
Qed.
Lemma seek_mix_ok (a : K * D) k sched : forall u p x r m, glob hf n c0 u p IStart -> tinv n r p -> sinv m u p x ->
  exists u' p' x' , seek_mix a k sched u p x = Ok (u', p', x') /\ tinv n (r + length (filter (fun x => x) sched)) p' /\ sinv (m - length (filter negb sched)) u' p' x'.
Proof.
  induction sched as [|b sched IH]; intros u p x r m G T Sv; cbn [seek_mix filter length].
  - exists u, p, x. rewrite Nat.add_0_r, Nat.sub_0_r. auto.
  - destruct b; cbn [negb].
    + destruct (glob_step hf n c0 Hn HG (fst a) (snd a) u p IStart r G T) as (u1 & p1 & E1 & G1 & T1). rewrite E1. cbn [bind length]. destruct (IH u1 p1 x (S r) m G1 T1 (sinv_add _ _ _ _ _ _ _ _ G E1 Sv)) as (u' & p' & x' & E & X & Y). exists u', p', x'. rewrite Nat.add_succ_r. auto.
    + destruct (sinv_rem k m u p x G Sv) as (u1 & x1 & E1 & G1 & S1). rewrite E1. cbn [bind length]. destruct (IH u1 p x1 r (Nat.pred m) G1 T S1) as (u' & p' & x' & E & X & Y). exists u', p', x'. split; [exact E|]. split; [exact X|]. replace (m - S (length (filter negb sched)))%nat with (Nat.pred m - length (filter negb sched))%nat by lia. exact Y.
Qed.
Lemma sinv_done u p x : sinv 0 u p x -> exists b, x = Gone (DDone b).
Proof.
  clear Hn Hc HG.
  destruct x as [pc|q]; [destruct pc|destruct q]; cbn [sinv rank]; intros S; try contradiction S; try (exfalso; destruct S as [_ S]; lia); try (exfalso; destruct S as [_ (_ & dd & Hd & _ & L)]; lia); try (exfalso; destruct S as [_ [(_ & dd & Hd & _ & L) _]]; lia). eauto.
Qed.
End Add.
Lemma seek_mix_safe {K D hf cmp} (t : htable K D) l c (a : K * D) k sched : ht_inv hf cmp t l c -> ht_count t + 1 <= ht_size t / 2 ->
  exists u p x, seek_mix a k sched t IStart (Seek RStart) = Ok (u, p, x) /\ (Z.to_nat (ht_size t) + 12 < length (filter (fun x => x) sched) -> p = IDone)%nat /\ (5 * Z.to_nat (ht_size t) + 17 <= length (filter negb sched) -> exists b, x = Gone (DDone b))%nat.
Proof.
  intros I HG. pose proof (inv_pos _ _ _ _ _ I). pose proof (inv_len _ _ _ _ _ I) as Hl. pose proof (inv_count _ _ _ _ _ I).
  destruct (seek_mix_ok hf cmp (length (ht_table t)) (ht_count t) ltac:(lia) ltac:(rewrite Hl; exact HG) a k sched t IStart (Seek RStart) 0 (5 * length (ht_table t) + 17)) as (u & p & x & E & T1 & T2).
  - unfold glob. cbn [over]. repeat split; auto; [exact (inv_hf _ _ _ _ _ I)|lia|intros m Hm; discriminate Hm|intros m Hm; discriminate Hm].
  - reflexivity.
  - split; [|lia]. split; [exact (inv_cmp _ _ _ _ _ I)|]. split; [|exact Logic.I]. intros i e He Se Ke. pose proof (inv_inuse _ _ _ _ _ I i e He Se) as Hin. destruct (inv_in_l I i Hin) as ([k' d'] & _ & e' & H1 & _ & K1 & _). congruence.
  - exists u, p, x. split; [exact E|]. rewrite <- Hl, Nat2Z.id. split; intros L; [exact (tinv_done _ _ _ T1 L)|]. replace (5 * length (ht_table t) + 17 - length (filter negb sched))%nat with O in T2 by lia. exact (sinv_done _ _ _ _ _ _ T2).
Qed.

(** *** two removals *)
Section Two.
Context {K D : Type} (hf : K -> Z) (cmp : K -> K -> Z) (n : nat) (Hn : (0 < n)%nat).
Notation tbl := (htable K D).
(** entry [i], if its hash value is that of [k], has a key *)
Definition guard (k : K) (u : tbl) (i : nat) : Prop := forall e, nth_error (ht_table u) i = Some e -> he_hash e = hf k -> he_key e <> None.
Definition sown (k : K) (m : nat) (u : tbl) (x : spc D) : Prop :=
  match x with
  | Seek RStart => own hf n k u DStart /\ (5 * n + 17 <= m)%nat
  | Seek (RStatus h i s) => h = hf k /\ own hf n k u DStart /\ place n m i s 16
  | Seek (RHash h i s) => h = hf k /\ own hf n k u DStart /\ place n m i s 15 /\ guard k u i
  | Seek (RKey h i s) => h = hf k /\ own hf n k u DStart /\ place n m i s 14 /\ guard k u i /\ own hf n k u (DKey i)
  | Seek (RAgain h i s) => h = hf k /\ own hf n k u DStart /\ place n m i s 13
  | Seek (RNext h i s) => h = hf k /\ own hf n k u DStart /\ place n m i s 12
  | Seek _ => False
  | Gone q => q <> DStart /\ own hf n k u q /\ (rank q <= m)%nat
  end.
Lemma guard_upd k (u u' : tbl) i f j : ht_table u' = upd (ht_table u) i f -> (forall e, nth_error (ht_table u) i = Some e -> he_hash (f e) = hf k -> he_hash e = hf k /\ he_key (f e) = he_key e) -> guard k u j -> guard k u' j.
Proof.
  intros E Hf H e. rewrite E, nth_error_upd. destruct (Nat.eqb_spec i j) as [<-|]; [|apply H]. destruct (nth_error (ht_table u) i) as [e0|] eqn:H0; [|discriminate]. intros X Hh. injection X as <-. destruct (Hf e0 eq_refl Hh) as [A ->]. exact (H e0 H0 A).
Qed.
Lemma guard_step k1 k2 (u u' : tbl) p p' j : hf k1 <> hf k2 -> 0 <> hf k2 -> own hf n k1 u p -> dstep k1 (u, p) = Ok (u', p') -> guard k2 u j -> guard k2 u' j.
Proof.
  clear Hn. intros Ne N0 O St G. destruct p; cbn [dstep own] in *; unfold at_entry in *; try (injection St as <- <-; exact G); try (destruct (nth_error (ht_table u) i); [injection St as <- <-; exact G|discriminate St]).
  - destruct (lookup u k1) as [r|]; [|discriminate St]. cbn [bind] in St. injection St as <- <-. exact G.
  - injection St as <- <-. eapply guard_upd; [reflexivity| |exact G]. intros e He X. destruct O as [_ O]. specialize (O e He). cbn in X. congruence.
  - injection St as <- <-. eapply guard_upd; [reflexivity| |exact G]. intros e _ X. exact (conj X eq_refl).
  - injection St as <- <-. eapply guard_upd; [reflexivity| |exact G]. intros e _ X. destruct (N0 X).
  - injection St as <- <-. eapply guard_upd; [reflexivity| |exact G]. intros e _ X. exact (conj X eq_refl).
  - injection St as <- <-. eapply guard_upd; [reflexivity| |exact G]. intros e _ X. exact (conj X eq_refl).
  - injection St as <- <-. eapply guard_upd; [reflexivity| |exact G]. intros e _ X. exact (conj X eq_refl).
Qed.
Lemma sown_other k1 k2 m (u u' : tbl) p p' y : hf k1 <> hf k2 -> 0 <> hf k2 -> frame hf cmp n u -> own hf n k1 u p -> dstep k1 (u, p) = Ok (u', p') -> sown k2 m u y -> sown k2 m u' y.
Proof.
  intros Ne N0 F O St Sv.
  assert (Ow : forall q, own hf n k2 u q -> own hf n k2 u' q).
  { intros q Oq. destruct (reap_step hf cmp n Hn k1 k2 u p q Ne N0 F O Oq) as (u1 & p1 & E & _ & _ & X & _). rewrite St in E. injection E as -> _. exact X. }
  assert (Gu : forall i, guard k2 u i -> guard k2 u' i) by (intros i; eapply guard_step; eauto).
  destruct y as [pc|q]; [destruct pc|]; cbn [sown] in *; intuition.
Qed.
Lemma sown_step k1 k2 m1 m2 (u : tbl) x y : hf k1 <> hf k2 -> 0 <> hf k2 -> frame hf cmp n u -> sown k1 m1 u x -> sown k2 m2 u y ->
  exists u' x', sstep k1 (u, x) = Ok (u', x') /\ frame hf cmp n u' /\ sown k1 (Nat.pred m1) u' x' /\ sown k2 m2 u' y.
Proof.
  intros Ne N0 F Sv Sy. pose proof F as (A & B & C & Kc).
  assert (At : forall i s x, place n m1 i s x -> exists e, nth_error (ht_table u) i = Some e) by (intros i s x0 (Hs & dd & Hd & -> & _); apply nth_error_lt_Some; rewrite B; apply slot_lt; assumption).
  assert (Pl : forall i s x y, (x < y)%nat -> place n m1 i s y -> place n (Nat.pred m1) i s x) by (intros i s x0 y0 Hxy (Hs & dd & Hd & E & L); split; [exact Hs|]; exists dd; repeat split; auto; lia).
  destruct x as [pc|q].
  - destruct pc; cbn [sown] in Sv; try contradiction Sv; cbn [sstep rstep].
    + destruct Sv as [Cl Hm]. rewrite C. destruct (Z.eqb_spec (ht_size u) 0); [lia|]. cbn [bind]. eexists _, _. split; [reflexivity|]. split; [exact F|]. split; [|exact Sy]. cbn [sown]. split; [reflexivity|]. split; [exact Cl|]. set (s := Z.to_nat (u64 (hf k1) mod ht_size u)). assert (Hs : (s < n)%nat) by (subst s; pose proof (Z.mod_pos_bound (u64 (hf k1)) (ht_size u) ltac:(lia)); lia). split; [exact Hs|]. exists O. rewrite slot_0 by exact Hs. repeat split; lia.
    + destruct Sv as (-> & Cl & P). destruct (At _ _ _ P) as [e He]. rewrite He. cbn [bind]. eexists _, _. split; [reflexivity|]. split; [exact F|]. split; [|exact Sy]. destruct (he_status e) eqn:Se; cbn [sown]; (split; [reflexivity|]); (split; [exact Cl|]); [eapply Pl; [|exact P]; lia|eapply Pl; [|exact P]; lia|].
      split; [eapply Pl; [|exact P]; lia|]. intros e' He' Hh Ke. rewrite He in He'. injection He' as <-. exact (Cl _ _ He Se Ke Hh).
    + destruct Sv as (-> & Cl & P & Gu). destruct (At _ _ _ P) as [e He]. rewrite He. cbn [bind]. eexists _, _. split; [reflexivity|]. split; [exact F|]. split; [|exact Sy]. destruct (Z.eqb_spec (he_hash e) (hf k1)) as [Hh|]; cbn [sown]; (split; [reflexivity|]); (split; [exact Cl|]); [|eapply Pl; [|exact P]; lia].
      split; [eapply Pl; [|exact P]; lia|]. split; [exact Gu|]. cbn [own]. split; [rewrite <- B; apply nth_error_Some; congruence|]. intros e' He'. congruence.
    + destruct Sv as (-> & Cl & P & Gu & Ow). destruct (At _ _ _ P) as [e He]. rewrite He, Kc. pose proof Ow as [_ Oh]. destruct (he_key e) as [k'|] eqn:Ke; [|destruct (Gu e He (Oh e He) Ke)]. cbn [bind]. eexists _, _. split; [reflexivity|]. split; [exact F|]. split; [|exact Sy]. destruct (cmp k' k1 =? 0); cbn [sown].
      * split; [discriminate|]. split; [exact Ow|]. destruct P as (_ & dd & Hd & _ & L). cbn [rank]. lia.
      * split; [reflexivity|]. split; [exact Cl|]. eapply Pl; [|exact P]; lia.
    + destruct Sv as (-> & Cl & P). destruct (At _ _ _ P) as [e He]. rewrite He. cbn [bind]. eexists _, _. split; [reflexivity|]. split; [exact F|]. split; [|exact Sy]. destruct (he_status e); cbn [sown own rank]; [split; [discriminate|split; [exact Logic.I|lia]]|..]; (split; [reflexivity|]); (split; [exact Cl|]); (eapply Pl; [|exact P]; lia).
    + destruct Sv as (-> & Cl & Hs & dd & Hd & -> & L). rewrite A, Nat2Z.id. cbn [bind]. eexists _, _. split; [reflexivity|]. split; [exact F|]. split; [|exact Sy].
      destruct (Nat.eq_dec (S dd) n) as [Ld|Ld]; [rewrite slot_step_last, Nat.eqb_refl by auto; cbn [sown own rank]; split; [discriminate|split; [exact Logic.I|lia]]|]. rewrite slot_step by lia. destruct (Nat.eqb _ s); cbn [sown own rank]; [split; [discriminate|split; [exact Logic.I|lia]]|].
      split; [reflexivity|]. split; [exact Cl|]. split; [exact Hs|]. exists (S dd). repeat split; lia.
  - cbn [sown] in Sv. destruct Sv as (Nq & O & Hr). destruct (reap_step hf cmp n Hn k1 k2 u q (DDone true) Ne N0 F O Logic.I) as (u' & q' & E & F' & O' & _ & R). cbn [sstep]. pose proof (sown_other _ _ _ _ _ _ _ _ Ne N0 F O E Sy) as Sy'. rewrite E. cbn [bind]. eexists _, _. split; [reflexivity|]. split; [exact F'|]. split; [|exact Sy']. cbn [sown]. split; [|split; [exact O'|lia]].
    intros ->. cbn [rank] in R. destruct q; cbn [rank] in R; try lia.
Qed.
Lemma seek_reap_ok k1 k2 sched : hf k1 <> hf k2 -> hf k1 <> 0 -> hf k2 <> 0 -> forall u x y m1 m2, frame hf cmp n u -> sown k1 m1 u x -> sown k2 m2 u y ->
  exists u' x' y', seek_reap k1 k2 sched u x y = Ok (u', x', y') /\ sown k1 (m1 - length (filter (fun x => x) sched)) u' x' /\ sown k2 (m2 - length (filter negb sched)) u' y'.
Proof.
  intros Ne N1 N2. induction sched as [|b sched IH]; intros u x y m1 m2 F S1 S2; cbn [seek_reap filter length].
  - exists u, x, y. rewrite !Nat.sub_0_r. auto.
  - destruct b; cbn [negb].
    + destruct (sown_step k1 k2 m1 m2 u x y Ne ltac:(congruence) F S1 S2) as (u1 & x1 & -> & F1 & P1 & Q1). cbn [bind length]. destruct (IH u1 x1 y _ _ F1 P1 Q1) as (u' & x' & y' & E & X & Y). exists u', x', y'. split; [exact E|]. split; [|exact Y]. replace (m1 - S (length (filter (fun x => x) sched)))%nat with (Nat.pred m1 - length (filter (fun x => x) sched))%nat by lia. exact X.
    + destruct (sown_step k2 k1 m2 m1 u y x ltac:(congruence) ltac:(congruence) F S2 S1) as (u1 & y1 & -> & F1 & Q1 & P1). cbn [bind length]. destruct (IH u1 x y1 _ _ F1 P1 Q1) as (u' & x' & y' & E & X & Y). exists u', x', y'. split; [exact E|]. split; [exact X|]. replace (m2 - S (length (filter negb sched)))%nat with (Nat.pred m2 - length (filter negb sched))%nat by lia. exact Y.
Qed.
Lemma sown_done k u x : sown k 0 u x -> exists b, x = Gone (DDone b).
Proof.
  clear Hn. assert (P0 : forall i s x, (0 < x)%nat -> ~ place n 0 i s x) by (intros i s x0 Hx (_ & dd & _ & _ & L); lia).
  destruct x as [pc|q]; [destruct pc|]; cbn [sown]; intros Sv; try contradiction Sv; try (exfalso; destruct Sv as [_ Sv]; lia); try (exfalso; destruct Sv as (_ & _ & Sv); first [eapply P0; [|exact Sv]; lia|destruct Sv as [Sv _]; eapply P0; [|exact Sv]; lia]).
  destruct Sv as (Nq & _ & R). destruct q; cbn [rank] in R; try lia. eauto.
Qed.
End Two.
Lemma seek_reap_safe {K D hf cmp} (t : htable K D) l c k1 k2 sched : ht_inv hf cmp t l c -> hf k1 <> hf k2 -> hf k1 <> 0 -> hf k2 <> 0 ->
  exists u x y, seek_reap k1 k2 sched t (Seek RStart) (Seek RStart) = Ok (u, x, y) /\
    (5 * Z.to_nat (ht_size t) + 17 <= length (filter (fun x => x) sched) -> exists b, x = Gone (DDone b))%nat /\ (5 * Z.to_nat (ht_size t) + 17 <= length (filter negb sched) -> exists b, y = Gone (DDone b))%nat.
Proof.
  intros I Ne N1 N2. pose proof (inv_pos _ _ _ _ _ I). pose proof (inv_len _ _ _ _ _ I) as Hl. set (n := length (ht_table t)) in *.
  assert (CO : forall k, clear_of hf k t).
  { intros k i e He Se Ke. pose proof (inv_inuse _ _ _ _ _ I i e He Se) as Hin. destruct (inv_in_l I i Hin) as ([k' d'] & _ & e' & H1 & _ & K1 & _). congruence. }
  destruct (seek_reap_ok hf cmp n ltac:(lia) k1 k2 sched Ne N1 N2 t (Seek RStart) (Seek RStart) (5 * n + 17) (5 * n + 17)) as (u & x & y & E & A & B); [|split; [apply CO|lia]|split; [apply CO|lia]|].
  - split; [lia|]. split; [reflexivity|]. split; [exact (inv_hf _ _ _ _ _ I)|exact (inv_cmp _ _ _ _ _ I)].
  - exists u, x, y. split; [exact E|]. rewrite <- Hl, Nat2Z.id. split; intros L.
    + replace (5 * n + 17 - length (filter (fun x => x) sched))%nat with O in A by lia. exact (sown_done _ _ _ _ _ A).
    + replace (5 * n + 17 - length (filter negb sched))%nat with O in B by lia. exact (sown_done _ _ _ _ _ B).
Qed.

(** *** every interleaving in which the search is one step is one in which it is not *)
Definition steady {K D} (u : htable K D) : Prop := 0 < ht_size u /\ ht_keycmp u <> None.
Definition fine {D} (q : dpc) : spc D := match q with DStart => Seek RStart | _ => Gone q end.
Lemma loop_fuel K D (tb : list (hentry K D)) n cmp k h s : (s < n)%nat -> forall f dd, (f + dd = n)%nat -> (dd < n)%nat -> lookup_loop f tb n cmp k h (HashProofs.slot n s dd) s <> Fault NoTermination.
Proof.
  intros Hs. induction f as [|f IH]; intros dd Hf Hd; [lia|]. cbn [lookup_loop]. destruct (nth_error tb (HashProofs.slot n s dd)) as [e|]; [|discriminate].
  assert (Ag : (let index' := if Nat.eqb (S (HashProofs.slot n s dd)) n then O else S (HashProofs.slot n s dd) in if Nat.eqb index' s then Ok None else lookup_loop f tb n cmp k h index' s) <> Fault NoTermination).
  { cbn zeta. destruct (Nat.eq_dec (S dd) n) as [L|L]; [rewrite slot_step_last, Nat.eqb_refl by auto; discriminate|]. rewrite slot_step by lia. destruct (Nat.eqb _ s); [discriminate|]. apply IH; lia. }
  destruct (he_status e); cbn [bind]; [discriminate|exact Ag|]. destruct (he_hash e =? h); cbn [bind]; [|exact Ag]. destruct (he_key e); cbn [bind]; [|discriminate]. destruct (cmp k0 k =? 0); [discriminate|exact Ag].
Qed.
Lemma lookup_fuel K D (u : htable K D) k : 0 < ht_size u -> lookup u k <> Fault NoTermination.
Proof.
  intros Hp. unfold lookup. destruct (ht_hashfunc u) as [hf|]; [|discriminate]. destruct (Z.eqb_spec (ht_size u) 0); [lia|]. destruct (ht_keycmp u) as [cmp|]; [|discriminate]. cbn zeta. set (s := Z.to_nat (u64 (hf k) mod ht_size u)). assert (Hs : (s < Z.to_nat (ht_size u))%nat) by (subst s; pose proof (Z.mod_pos_bound (u64 (hf k)) (ht_size u) ltac:(lia)); lia).
  pose proof (loop_fuel K D (ht_table u) _ cmp k (hf k) s Hs (Z.to_nat (ht_size u)) 0 ltac:(lia) ltac:(lia)) as X. rewrite slot_0 in X by exact Hs. exact X.
Qed.
Lemma seek_one {K D} (k : K) (u : htable K D) q : steady u -> exists n, ssteps n k (u, fine q) = match dstep k (u, q) with Ok (u', q') => Ok (u', fine q') | Fault f => Fault f end.
Proof.
  intros [Hp Hc]. assert (G : forall q, q <> DStart -> forall u' q', dstep k (u, q) = Ok (u', q') -> q' <> DStart).
  { intros q0 N u' q' E ->. destruct q0; cbn [dstep] in E; unfold at_entry in E; try congruence; try (destruct (nth_error (ht_table u) i) as [e|]; [|discriminate E]; injection E as _ E; try discriminate E; try (destruct (he_next e); discriminate E); try (destruct (he_prev e); discriminate E)). injection E as _ E. destruct (ht_head u) as [h|]; [destruct (Nat.eqb h i)|]; discriminate E. }
  destruct q eqn:Q; [|exists 1%nat; rewrite <- Q; assert (N : q <> DStart) by congruence; assert (F : @fine D q = Gone q) by (subst q; reflexivity); rewrite F; cbn [ssteps sstep]; specialize (G q N); destruct (dstep k (u, q)) as [[u' q']|f]; cbn [bind]; [|reflexivity]; specialize (G u' q' eq_refl); destruct q'; reflexivity || congruence..].
  destruct (seek_lookup k u Hc (lookup_fuel _ _ u k Hp)) as (n & Hn). exists n. cbn [fine dstep]. rewrite Hn. destruct (lookup u k) as [[i|]|f]; reflexivity.
Qed.
Lemma dstep_steady {K D} (k : K) (u u' : htable K D) q q' : dstep k (u, q) = Ok (u', q') -> steady u -> steady u'.
Proof.
  intros E S0. destruct q; cbn [dstep] in E; unfold at_entry in E; try (injection E as <- <-; exact S0); try (destruct (nth_error (ht_table u) i); [injection E as <- <-; exact S0|discriminate E]). destruct (lookup u k); [|discriminate E]. injection E as <- <-. exact S0.
Qed.
Lemma grow_steady K D (es : list (hentry K D)) : forall u u', grow_loop es u = Ok u' -> steady u -> steady u'.
Proof.
  induction es as [|e es IH]; intros u u'; cbn [grow_loop]; [intros E; injection E as <-; auto|]. destruct (he_status e); [apply IH|apply IH|]. destruct (he_key e) as [k|]; [|discriminate]. destruct (he_data e) as [d|]; [|discriminate]. unfold insert. destruct (ht_size u =? 0); [discriminate|]. cbn zeta.
  destruct (insert_probe _ _ _ _ _) as [[fr en]|]; cbn [bind]; [|discriminate]. intros E S0. eapply IH; [exact E|]. exact S0.
Qed.
Lemma grow_size_pos f : forall c s s', grow_size f c s = Ok s' -> 0 < s -> 0 < s'.
Proof. induction f as [|f IH]; intros c s s'; cbn [grow_size]; [discriminate|]. destruct (c >? s / 2); [intros E Hs; eapply IH; [exact E|lia]|intros E; injection E as <-; auto]. Qed.
Lemma istep_steady {K D} (k : K) (d : D) (u u' : htable K D) p p' : istep k d (u, p) = Ok (u', p') -> steady u -> steady u'.
Proof.
  intros E S0. destruct p; cbn [istep] in E; try (injection E as <- <-; exact S0).
  - destruct (grow_size _ _ _) as [ns|] eqn:Gs; [|discriminate E]. cbn [bind] in E. assert (X : exists w, (if ns =? ht_size u then Ok u else grow_hashtable u ns) = Ok w /\ steady w /\ u' = w).
    { destruct (if ns =? ht_size u then Ok u else grow_hashtable u ns) as [w|] eqn:W; [|discriminate E]. cbn [bind] in E. exists w. split; [reflexivity|]. split; [|destruct (ht_hashfunc w); [|discriminate E]; destruct (ht_size w =? 0); [discriminate E|injection E as <- _; reflexivity]].
      destruct (ns =? ht_size u); [injection W as <-; exact S0|]. unfold grow_hashtable in W. eapply grow_steady; [exact W|]. destruct S0 as [Hp Hc]. split; [eapply grow_size_pos; eauto|exact Hc]. }
    destruct X as (w & _ & Sw & ->). exact Sw.
  - destruct (nth_error (ht_table u) i) as [e|]; [|discriminate E]. destruct (he_status e); injection E as <- <-; exact S0.
Qed.
Lemma seek_mix_app {K D} (a : K * D) k s1 s2 : forall (u : htable K D) p q, seek_mix a k (s1 ++ s2) u p q = (do ' (u1, p1, q1) <- seek_mix a k s1 u p q; seek_mix a k s2 u1 p1 q1).
Proof. induction s1 as [|b s1 IH]; intros u p q; cbn [app seek_mix bind]; [reflexivity|]. destruct b; [destruct (istep (fst a) (snd a) (u, p)) as [[u1 p1]|]|destruct (sstep k (u, q)) as [[u1 q1]|]]; cbn [bind]; auto. Qed.
Lemma seek_mix_rem {K D} (a : K * D) k n : forall (u : htable K D) p q, seek_mix a k (repeat false n) u p q = match ssteps n k (u, q) with Ok (u', q') => Ok (u', p, q') | Fault f => Fault f end.
Proof. induction n as [|n IH]; intros u p q; cbn [repeat seek_mix ssteps]; [reflexivity|]. destruct (sstep k (u, q)) as [[u1 q1]|]; cbn [bind]; auto. Qed.
Lemma mix_fine {K D} (a : K * D) k sched : forall (u : htable K D) p q, steady u -> exists sched', seek_mix a k sched' u p (fine q) = match mix a k sched u p q with Ok (u', p', q') => Ok (u', p', fine q') | Fault f => Fault f end.
Proof.
  induction sched as [|b sched IH]; intros u p q S0; [exists []; reflexivity|]. destruct b; cbn [mix].
  - destruct (istep (fst a) (snd a) (u, p)) as [[u1 p1]|f] eqn:E; cbn [bind]; [|exists [true]; cbn [seek_mix]; rewrite E; reflexivity]. destruct (IH u1 p1 q (istep_steady _ _ _ _ _ _ E S0)) as (s & Hs). exists (true :: s). cbn [seek_mix]. rewrite E. exact Hs.
  - destruct (seek_one k u q S0) as (n & Hn). destruct (dstep k (u, q)) as [[u1 q1]|f] eqn:E; cbn [bind].
    + destruct (IH u1 p q1 (dstep_steady _ _ _ _ _ E S0)) as (s & Hs). exists (repeat false n ++ s). rewrite seek_mix_app, seek_mix_rem, Hn. exact Hs.
    + exists (repeat false n). rewrite seek_mix_rem, Hn. reflexivity.
Qed.
Lemma seek_reap_app {K D} (k1 k2 : K) s1 s2 : forall (u : htable K D) p q, seek_reap k1 k2 (s1 ++ s2) u p q = (do ' (u1, p1, q1) <- seek_reap k1 k2 s1 u p q; seek_reap k1 k2 s2 u1 p1 q1).
Proof. induction s1 as [|b s1 IH]; intros u p q; cbn [app seek_reap bind]; [reflexivity|]. destruct b; [destruct (sstep k1 (u, p)) as [[u1 p1]|]|destruct (sstep k2 (u, q)) as [[u1 q1]|]]; cbn [bind]; auto. Qed.
Lemma seek_reap_two {K D} (k1 k2 : K) n : forall (u : htable K D) p q, seek_reap k1 k2 (repeat false n) u p q = match ssteps n k2 (u, q) with Ok (u', q') => Ok (u', p, q') | Fault f => Fault f end.
Proof. induction n as [|n IH]; intros u p q; cbn [repeat seek_reap ssteps]; [reflexivity|]. destruct (sstep k2 (u, q)) as [[u1 q1]|]; cbn [bind]; auto. Qed.
Lemma seek_reap_one {K D} (k1 k2 : K) n : forall (u : htable K D) p q, seek_reap k1 k2 (repeat true n) u p q = match ssteps n k1 (u, p) with Ok (u', p') => Ok (u', p', q) | Fault f => Fault f end.
Proof. induction n as [|n IH]; intros u p q; cbn [repeat seek_reap ssteps]; [reflexivity|]. destruct (sstep k1 (u, p)) as [[u1 p1]|]; cbn [bind]; auto. Qed.
Lemma reap_fine {K D} (k1 k2 : K) sched : forall (u : htable K D) p q, steady u -> exists sched', seek_reap k1 k2 sched' u (fine p) (fine q) = match reap k1 k2 sched u p q with Ok (u', p', q') => Ok (u', fine p', fine q') | Fault f => Fault f end.
Proof.
  induction sched as [|b sched IH]; intros u p q S0; [exists []; reflexivity|]. destruct b; cbn [reap].
  - destruct (seek_one k1 u p S0) as (n & Hn). destruct (dstep k1 (u, p)) as [[u1 p1]|f] eqn:E; cbn [bind].
    + destruct (IH u1 p1 q (dstep_steady _ _ _ _ _ E S0)) as (s & Hs). exists (repeat true n ++ s). rewrite seek_reap_app, seek_reap_one, Hn. exact Hs.
    + exists (repeat true n). rewrite seek_reap_one, Hn. reflexivity.
  - destruct (seek_one k2 u q S0) as (n & Hn). destruct (dstep k2 (u, q)) as [[u1 q1]|f] eqn:E; cbn [bind].
    + destruct (IH u1 p q1 (dstep_steady _ _ _ _ _ E S0)) as (s & Hs). exists (repeat false n ++ s). rewrite seek_reap_app, seek_reap_two, Hn. exact Hs.
    + exists (repeat false n). rewrite seek_reap_two, Hn. reflexivity.
Qed.
