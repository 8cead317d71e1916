(** The allocator over whole histories. *)
From Coq Require Import Permutation.
From Verif Require Import Base ListFacts AllocModel SpecAlloc AllocProofs.

Definition backs (c : chunk) (b : Z * Z) : Prop := fst b = fst c + 8 /\ 0 <= snd b <= snd c.
Definition base (m0 : memory) (h : heap) : Prop :=
  (forall a, m0 a <> None -> h_mem h a = m0 a) /\ (forall r len a, In (r, len) (h_maps h) -> r <= a < r + len -> m0 a = None).
Definition inv (m0 : memory) (h : heap) (l : blocks) : Prop := exists fr us, heap_ok h fr us /\ Forall2 backs us l /\ base m0 h.

Lemma word_in c b a : okc c -> backs c b -> word_inside b a -> a mod 8 = 0 -> fst c + 8 <= a /\ a + 8 <= ends c.
Proof.
  intros (O1 & O2 & O3 & O4 & O5) (B1 & B2) (x & Hx & I1 & I2) A. unfold ends in *. rewrite B1 in *.
  assert (A8 : (fst c + 8) mod 8 = 0) by (apply mod_add; auto). split.
  - destruct (Z.le_gt_cases (fst c + 8) a); [auto|]. pose proof (mod8_le a (fst c + 8) A A8 ltac:(lia)). lia.
  - apply mod8_le; [auto|apply mod_add; auto|lia].
Qed.
(** writes into the payload of a block in use *)
Lemma payload_ok h fr us c m' : heap_ok h fr us -> In c us -> (forall a, ~ fst c + 8 <= a < ends c -> m' a = h_mem h a) -> (forall a, (exists v, h_mem h a = Some v) -> exists v, m' a = Some v) ->
  heap_ok (mkHeap m' (h_free h) (h_maps h) (h_pushes h)) fr us.
Proof.
  intros (C & M & Ch & L & I) J F S. split; [auto|]. cbn [h_mem h_free h_maps h_pushes].
  assert (Jc : In c (fr ++ us)) by (apply in_app_iff; auto). destruct (chunks_in _ _ C Jc) as (O1 & O2 & O3 & O4 & O5).
  assert (D : forall d, In d fr -> disj c d). { intros d Jd. apply in_split in J as (u1 & u2 & ->). rewrite app_assoc in C. eapply chunks_disj; [exact C|]. rewrite !in_app_iff. auto. }
  split; [|split; [|split; auto]].
  - intros d Jd. destruct (M d Jd) as [Mh Mw]. split; [|intros a Ha A8; apply S; auto].
    rewrite F; [auto|]. intros H. assert (Jd' := Jd). destruct (chunks_in _ _ C Jd) as (Q1 & Q2 & Q3 & _). apply in_split in Jc as (l1 & l2 & E). rewrite E in *.
    apply in_app_iff in Jd' as [J'|[J'|J']]; [|subst; lia|]; assert (Dj := chunks_disj _ _ _ d C ltac:(apply in_app_iff; auto)); unfold disj, ends in *; lia.
  - eapply chain_frame; [|exact Ch]. intros d Jd. apply F. specialize (D d Jd). destruct (chunks_in _ d C ltac:(apply in_app_iff; auto)) as (Q1 & Q2 & Q3 & _). unfold disj, ends in *. lia.
Qed.
Lemma maps_none m0 h c a : base m0 h -> in_maps (h_maps h) c -> fst c <= a < ends c -> m0 a = None.
Proof. intros [_ B] (r & len & J & R1 & R2) H. apply (B r len); auto. lia. Qed.
Lemma find_block us l p : Forall2 backs us l -> In p (map fst l) ->
  exists u1 c u2 l1 n l2, us = u1 ++ c :: u2 /\ l = l1 ++ (p, n) :: l2 /\ Forall2 backs u1 l1 /\ Forall2 backs u2 l2 /\ backs c (p, n).
Proof.
  intros F J. apply in_map_iff in J as ([q n] & <- & J). cbn [fst]. apply in_split in J as (l1 & l2 & ->).
  apply Forall2_app_inv_r in F as (u1 & u2 & F1 & F2 & ->). inversion F2; subst. exists u1, x, l, l1, n, l2. auto.
Qed.
Lemma drop_eq fr u1 c u2 l1 n l2 p : chunks_ok (fr ++ u1 ++ c :: u2) -> Forall2 backs u1 l1 -> Forall2 backs u2 l2 -> backs c (p, n) -> drop p (l1 ++ (p, n) :: l2) = l1 ++ l2.
Proof.
  intros C F1 F2 [B _]. cbn [fst] in B.
  assert (N : forall us l, Forall2 backs us l -> (forall d, In d us -> In d (u1 ++ u2)) -> drop p l = l).
  { induction 1 as [|d b us' l' [E _] F IH]; intros S; [reflexivity|]. unfold drop in *. cbn [filter]. rewrite IH by (intros; apply S; right; auto).
    destruct (Z.eqb_spec (fst b) p); [|reflexivity]. exfalso. assert (Dj : disj c d).
    { rewrite app_assoc in C. eapply chunks_disj; [exact C|]. specialize (S d ltac:(left; auto)). rewrite !in_app_iff in *. tauto. }
    assert (Jd : In d (fr ++ u1 ++ c :: u2)). { specialize (S d ltac:(left; auto)). rewrite !in_app_iff in *. cbn. tauto. }
    assert (Jc : In c (fr ++ u1 ++ c :: u2)) by (rewrite !in_app_iff; cbn; auto).
    destruct (chunks_in _ _ C Jd) as (Q1 & Q2 & Q3 & _). destruct (chunks_in _ _ C Jc) as (O1 & O2 & O3 & _). unfold disj, ends in Dj. lia. }
  unfold drop. rewrite filter_app. cbn [filter fst]. rewrite Z.eqb_refl. cbn [negb]. fold (drop p l1) (drop p l2).
  rewrite (N u1 l1 F1), (N u2 l2 F2); [auto| |]; intros d J; apply in_app_iff; auto.
Qed.

Lemma in_mid {A} (b x : A) l1 l2 : In b (l1 ++ x :: l2) -> x <> b -> In b (l1 ++ l2).
Proof. rewrite !in_app_iff. cbn. intuition. Qed.
(** what a step leaves alone *)
Definition spares (b : Z * Z) (a : Z) (o : op) : Prop :=
  match o with Malloc _ _ => True | Free p => p <> fst b | Realloc _ p _ => p <> fst b | Write x _ => x <> a end.
Definition moved (h h' : heap) (l : blocks) (o : op) (r : Z) : Prop :=
  match o with
  | Realloc _ p size => r <> 0 -> forall n i, In (p, n) l -> 0 <= i < n -> i mod 8 = 0 -> h_mem h' (r + i) = h_mem h (p + i)
  | _ => True
  end.
Lemma backs_disjoint fr us l c b b' a : chunks_ok (fr ++ us) -> Forall2 backs us l -> In c us -> backs c b -> In b' l -> fst b' <> fst b -> word_inside b' a -> a mod 8 = 0 -> ~ fst c <= a < ends c.
Proof.
  intros C F Jc Bc Jb N W A H. apply Forall2_In_r with (y := b') in F as (d & Jd & Bd); [|auto].
  assert (Od : okc d) by (eapply chunks_in; [exact C|apply in_app_iff; auto]). destruct (word_in d b' a Od Bd W A) as [W1 W2].
  apply in_split in Jc as (u1 & u2 & ->). assert (Nd : d <> c) by (intros ->; destruct Bc, Bd; congruence).
  assert (Dj : disj c d). { rewrite app_assoc in C. eapply chunks_disj; [exact C|]. rewrite !in_app_iff in *. cbn in Jd. intuition congruence. }
  unfold disj, ends in *. lia.
Qed.
Lemma back_in us l b : Forall2 backs us l -> In b l -> exists c, In c us /\ backs c b.
Proof. intros F J. apply Forall2_In_r with (y := b) in F as (d & Jd & Bd); eauto. Qed.

Lemma step_ok pagesz m0 h l o : page_ok pagesz -> inv m0 h l -> valid h l o ->
  exists h' r, run_op pagesz h o = Ok (h', r) /\ inv m0 h' (after l o r) /\ incl (h_maps h) (h_maps h') /\ moved h h' l o r /\
    (forall b a, In b l -> word_inside b a -> a mod 8 = 0 -> spares b a o -> h_mem h' a = h_mem h a /\ In b (after l o r)).
Proof.
  intros Pg (fr & us & H & F & Bs) V. assert (H' := H). destruct H' as (C & M & Ch & L & I).
  assert (Oc : forall c, In c (fr ++ us) -> okc c) by (intros; eapply chunks_in; eauto).
  (* the result of gotcha_malloc *)
  assert (Mal : forall kernel size, 0 <= size <= MAX_REQUEST -> kernel_ok (h_mem h) kernel ->
    exists h' r, gotcha_malloc pagesz kernel h size = Ok (h', r) /\
     ((r = 0 /\ h' = h) \/ (r <> 0 /\ exists fr' c, backs c (r, size) /\ heap_ok h' fr' (c :: us) /\ base m0 h' /\ incl (h_maps h) (h_maps h') /\
        (forall b a, In b l -> word_inside b a -> a mod 8 = 0 -> h_mem h' a = h_mem h a)))).
  { intros kernel size Hs K. destruct (malloc_ok pagesz kernel h fr us size Pg H Hs K) as (h' & r & E & R). exists h', r. split; [auto|].
    destruct R as [(R0 & R1 & _)|(fr' & c & Ec & Sz & H1 & [U1 U2] & Ic & _ & _)]; [left; auto|right].
    assert (Okc : okc c). { destruct H1 as (C1 & _). eapply chunks_in; [exact C1|]. apply in_app_iff. right. left. auto. }
    destruct Okc as (O1 & O2 & O3 & O4 & O5). split; [lia|]. exists fr', c. destruct (round_ok size Hs) as (R1 & R2 & R3).
    split; [split; cbn; lia|]. split; [auto|]. split; [|split; [auto|]].
    - destruct Bs as [B1 B2]. assert (Un : forall a, m0 a <> None -> h_mem h' a = h_mem h a).
      { intros a Na. apply U2; [rewrite B1; auto|]. intros d Jd Hd. apply Na. eapply maps_none; [split; eauto| |exact Hd]. rewrite Forall_forall in I. apply I. apply in_app_iff; auto. }
      split; [intros a Na; rewrite Un; auto|]. intros r' len a Jm Ha.
      (* the regions *)
      unfold gotcha_malloc in E. cbv zeta in E. destruct (best_fit _ _ _ _ _ _) as [[[[p' b'] d']|]|] eqn:Eb; cbn [bind] in E; [| |discriminate E].
      + assert (Em : h_maps h' = h_maps h). 
        { destruct (ldw (h_mem h) (u64 (b' + 8))); cbn [bind] in E; [|discriminate E].
          destruct (negb (p' =? 0)); [destruct (stw _ _ _); cbn [bind] in E; [|discriminate E]|cbn [bind] in E];
          (match type of E with context [split_allocation ?hh ?x ?y] => destruct (split_allocation hh x y) as [hs|] eqn:Es end; cbn [bind] in E; [|discriminate E]; inversion E; subst;
           unfold split_allocation in Es; cbn [h_mem h_free h_maps h_pushes] in Es; destruct (ldw _ _); cbn [bind] in Es; [|discriminate Es];
           destruct (_ <=? _); [inversion Es; subst; reflexivity|];
           destruct (stw _ _ _); cbn [bind] in Es; [|discriminate Es]; destruct (stw _ _ _); cbn [bind] in Es; [|discriminate Es]; destruct (stw _ _ _); cbn [bind] in Es; [|discriminate Es];
           inversion Es; subst; reflexivity). }
        rewrite Em in Jm. eapply B2; eauto.
      + destruct (block_size _ _) as [len0|]; cbn [bind] in E; [|discriminate E]. destruct (kernel (u64 len0)) as [nw|] eqn:Ek; [|inversion E; subst; lia].
        assert (Em : h_maps h' = (nw, u64 len0) :: h_maps h).
        { destruct (stw _ _ _); cbn [bind] in E; [|discriminate E].
          match type of E with context [split_allocation ?hh ?x ?y] => destruct (split_allocation hh x y) as [hs|] eqn:Es end; cbn [bind] in E; [|discriminate E]; inversion E; subst;
           unfold split_allocation in Es; cbn [h_mem h_free h_maps h_pushes] in Es; destruct (ldw _ _); cbn [bind] in Es; [|discriminate Es];
           destruct (_ <=? _); [inversion Es; subst; reflexivity|];
           destruct (stw _ _ _); cbn [bind] in Es; [|discriminate Es]; destruct (stw _ _ _); cbn [bind] in Es; [|discriminate Es]; destruct (stw _ _ _); cbn [bind] in Es; [|discriminate Es];
           inversion Es; subst; reflexivity. }
        rewrite Em in Jm. destruct Jm as [Jm|Jm]; [|eapply B2; eauto]. inversion Jm; subst. destruct (K _ _ Ek) as (_ & _ & _ & K4).
        specialize (K4 a Ha). destruct (m0 a) eqn:E0; [|auto]. rewrite B1 in K4 by congruence. congruence.
    - intros b a Jb W A. destruct (back_in _ _ _ F Jb) as (d & Jd & Bd). apply (U1 d); [auto|]. destruct (word_in d b a) as [W1 W2]; auto; [apply Oc; apply in_app_iff; auto|]. lia. }
  destruct o as [kernel size|p|kernel p size|x v]; cbn [run_op valid after spares moved] in *.
  - destruct V as [Hs K]. destruct (Mal kernel size Hs K) as (h' & r & E & R). exists h', r. split; [auto|]. destruct R as [[-> ->]|(Rn & fr' & c & Bc & H1 & B1 & Ic & U)].
    + cbn [Z.eqb]. split; [exists fr, us; auto|]. split; [apply incl_refl|]. split; [auto|]. auto.
    + destruct (Z.eqb_spec r 0); [lia|]. split; [exists fr', (c :: us); split; [auto|]; split; [constructor; auto|auto]|]. split; [auto|]. split; [auto|].
      intros b a Jb W A _. split; [eapply U; eauto|right; auto].
  - destruct (find_block us l p F V) as (u1 & c & u2 & l1 & n & l2 & -> & -> & F1 & F2 & Bc).
    destruct (free_ok h fr u1 c u2 H) as (h' & E & H1 & Em & U). destruct Bc as [Bp Bn]. cbn [fst snd] in Bp, Bn. rewrite Bp, E. cbn [bind]. rewrite <- Bp. exists h', 0. split; [auto|].
    assert (Ed := drop_eq fr u1 c u2 l1 n l2 p C F1 F2 (conj Bp Bn)). rewrite Ed.
    assert (Jc : In c (u1 ++ c :: u2)) by (rewrite in_app_iff; cbn; auto).
    assert (Okc : okc c) by (apply Oc; apply in_app_iff; auto). destruct Okc as (O1 & O2 & O3 & O4 & O5).
    split; [|split; [rewrite Em; apply incl_refl|split; [auto|]]].
    + exists (c :: fr), (u1 ++ u2). split; [auto|]. split; [apply Forall2_app; auto|]. destruct Bs as [B1 B2]. split; [|rewrite Em; auto].
      intros a Na. rewrite U; [auto|]. intros ->. apply Na. eapply maps_none; [split; eauto| |]; [rewrite Forall_forall in I; apply (I c); apply in_app_iff; auto|unfold ends; lia].
    + intros b a Jb W A N. split.
      * apply U. intros ->. eapply (backs_disjoint fr (u1 ++ c :: u2) (l1 ++ (p, n) :: l2) c (p, n) b); eauto; [split; auto|unfold ends; lia].
      * apply (in_mid b (p, n)); [auto|]. intros <-. cbn in N. congruence.
  - destruct V as (V & Hs & K). destruct (find_block us l p F V) as (u1 & c & u2 & l1 & n & l2 & -> & -> & F1 & F2 & Bc).
    assert (Jc : In c (fr ++ u1 ++ c :: u2)) by (rewrite !in_app_iff; cbn; auto). destruct (Oc c Jc) as (O1 & O2 & O3 & O4 & O5). destruct (M c Jc) as [Mh Mw].
    assert (Ed := drop_eq fr u1 c u2 l1 n l2 p C F1 F2 Bc). assert (Bc' := Bc). destruct Bc' as [Bp Bn]. cbn [fst snd] in Bp, Bn. unfold ends in O5.
    assert (Uniq : forall n', In (p, n') (l1 ++ (p, n) :: l2) -> n' = n).
    { intros n' J. assert (D : In (p, n') (l1 ++ l2) \/ n' = n). { destruct (Z.eq_dec n' n) as [En|En]; [auto|left]. apply (in_mid _ (p, n)); [auto|congruence]. }
      destruct D as [D|D]; [|auto]. exfalso. assert (Ip : In (p, n') (drop p (l1 ++ (p, n) :: l2))) by (rewrite Ed; auto). unfold drop in Ip. apply filter_In in Ip as [_ Ip]. cbn [fst] in Ip. rewrite Z.eqb_refl in Ip. discriminate Ip. }
    unfold gotcha_realloc. cbv zeta. replace (p - 8) with (fst c) by lia. rewrite u64_small by (unfold two64; lia). unfold ldw at 1. rewrite Mh. cbn [bind].
    destruct (Z.leb_spec size (snd c)) as [Le|Gt].
    + exists h, p. split; [auto|]. destruct (Z.eqb_spec p 0); [lia|]. rewrite Ed. split; [|split; [apply incl_refl|split]].
      * exists fr, (c :: u1 ++ u2). split; [|split; [constructor; [split; cbn; lia|apply Forall2_app; auto]|auto]].
        assert (P : Permutation (fr ++ u1 ++ c :: u2) (fr ++ c :: u1 ++ u2)) by (apply Permutation_app_head; apply Permutation_sym, Permutation_middle).
        split; [eapply chunks_perm; eauto|]. split; [eapply memok_perm; eauto|]. split; [auto|]. split; [auto|]. eapply Permutation_Forall; eauto.
      * auto.
      * intros b a Jb W A N. split; [auto|]. right. apply (in_mid b (p, n)); [auto|]. intros <-. cbn in N. congruence.
    + destruct (Mal kernel size Hs K) as (h1 & r & E & R). rewrite E. cbn [bind]. destruct R as [[-> ->]|(Rn & fr' & c1 & Bc1 & H1 & B1 & Ic & U)].
      * cbn [Z.eqb]. exists h, 0. split; [auto|]. cbn [Z.eqb]. split; [exists fr, (u1 ++ c :: u2); auto|]. split; [apply incl_refl|]. split; [congruence|auto].
      * destruct (Z.eqb_spec r 0); [lia|]. assert (H1' := H1). destruct H1' as (C1 & M1 & Ch1 & L1 & I1).
        assert (Jc1 : In c (fr' ++ c1 :: u1 ++ c :: u2)) by (rewrite in_app_iff; cbn; rewrite in_app_iff; cbn; auto).
        assert (Jn : In c1 (fr' ++ c1 :: u1 ++ c :: u2)) by (rewrite in_app_iff; cbn; auto).
        destruct (M1 c Jc1) as [Mh1 Mw1]. unfold ldw. rewrite Mh1. cbn [bind].
        destruct (chunks_in _ _ C1 Jn) as (Q1 & Q2 & Q3 & Q4 & Q5). unfold ends in Q5. destruct Bc1 as [Br Bz]. cbn [fst snd] in Br, Bz.
        assert (Dj : disj c1 c). { eapply chunks_disj; [exact C1|]. rewrite !in_app_iff. cbn. auto. } unfold disj, ends in Dj.
        assert (E8 : 8 * Z.of_nat (Z.to_nat (snd c / 8)) = snd c). { rewrite Z2Nat.id by (apply Z.div_pos; lia). pose proof (Z.div_mod (snd c) 8 ltac:(lia)). lia. }
        destruct (copy_words_ok (Z.to_nat (snd c / 8)) (h_mem h1) r p) as (m' & Ec & W1 & W2 & W3); rewrite ?E8; try lia; try (rewrite ?Br, ?Bp; apply mod_add; auto; fail).
        { intros a Ha A8. apply (M1 c1 Jn); [unfold ends; lia|auto]. }
        { intros a Ha A8. apply Mw1; [unfold ends; lia|auto]. }
        rewrite E8 in *. rewrite Ec. cbn [bind].
        assert (H2 : heap_ok (mkHeap m' (h_free h1) (h_maps h1) (h_pushes h1)) fr' (c1 :: u1 ++ c :: u2)).
        { eapply payload_ok; [exact H1|left; reflexivity| |auto]. intros a Ha. apply W1. unfold ends in Ha. lia. }
        change (c1 :: u1 ++ c :: u2) with ((c1 :: u1) ++ c :: u2) in H2. destruct (free_ok _ fr' (c1 :: u1) c u2 H2) as (h3 & E3 & H3 & Em3 & U3).
        rewrite Bp, E3. cbn [bind]. exists h3, r. split; [auto|]. destruct (Z.eqb_spec r 0); [lia|]. rewrite <- Bp, Ed. cbn [h_maps h_mem] in *.
        assert (In_maps : forall d, In d (c1 :: u1 ++ c :: u2) -> in_maps (h_maps h1) d) by (intros d J; rewrite Forall_forall in I1; apply I1; apply in_app_iff; auto).
        split; [|split; [rewrite Em3; auto|split]].
        -- exists (c :: fr'), (c1 :: u1 ++ u2). split; [exact H3|]. split; [constructor; [split; cbn; auto|apply Forall2_app; auto]|].
           destruct B1 as [B1 B2]. split; [|rewrite Em3; auto]. intros a Na. rewrite U3, W1; [auto| |].
           ++ intros Ha. apply Na. eapply maps_none; [split; eauto|apply (In_maps c1); left; auto|unfold ends; lia].
           ++ intros ->. apply Na. eapply maps_none; [split; eauto|apply (In_maps c); right; rewrite in_app_iff; cbn; auto|unfold ends; lia].
        -- intros _ n' i Jn' Hi I8. apply Uniq in Jn'. subst n'. rewrite U3 by lia. rewrite W2 by (auto; lia).
           apply U with (b := (p, n)); [rewrite in_app_iff; cbn; auto| |rewrite Bp; apply mod_add; [apply mod_add; auto|auto]]. exists (p + i). split; [lia|]. unfold inside. cbn. lia.
        -- intros b a Jb W A N. split.
           ++ rewrite U3, W1; [eapply U; eauto| |].
              ** intros Ha. eapply (backs_disjoint fr' (c1 :: u1 ++ c :: u2) ((r, size) :: l1 ++ (p, n) :: l2) c1 (r, size) b a); eauto.
                 --- constructor; [split; cbn; auto|]. apply Forall2_app; [auto|constructor; auto].
                 --- left; auto.
                 --- split; cbn; auto.
                 --- right; auto.
                 --- destruct (back_in _ _ _ F Jb) as (d & Jd & Bd). cbn [fst]. destruct Bd as [Bd _]. rewrite Bd, Br. assert (Dd : disj c1 d). { eapply chunks_disj; [exact C1|]. rewrite !in_app_iff in *. tauto. }
                     destruct (chunks_in _ d C) as (T1 & T2 & T3 & _); [apply in_app_iff; auto|]. unfold disj, ends in Dd. lia.
                 --- unfold ends. lia.
              ** intros ->. eapply (backs_disjoint fr (u1 ++ c :: u2) (l1 ++ (p, n) :: l2) c (p, n) b); eauto; [rewrite in_app_iff; cbn; auto|unfold ends; lia].
           ++ right. apply (in_mid b (p, n)); [auto|]. intros <-. cbn in N. congruence.
  - destruct V as (A & b & Jb & W). destruct (back_in _ _ _ F Jb) as (c & Jc & Bc).
    assert (Jc' : In c (fr ++ us)) by (apply in_app_iff; auto). destruct (word_in c b x (Oc c Jc') Bc W A) as [W1 W2]. destruct (M c Jc') as [Mh Mw].
    destruct (Mw x) as [w Hw]; [lia|auto|]. rewrite (stw_ok _ _ _ _ Hw). cbn [bind]. eexists. exists 0. split; [reflexivity|].
    split; [|split; [apply incl_refl|split; [auto|]]].
    + exists fr, us. split; [|split; [auto|]].
      * eapply payload_ok; [exact H|exact Jc| |]; [intros a Ha; apply set_word_neq; lia|intros a Ha; apply set_word_some; auto].
      * destruct Bs as [B1 B2]. split; [|auto]. cbn [h_mem]. intros a Na. rewrite set_word_neq; [auto|]. intros ->. apply Na. eapply maps_none; [split; eauto| |]; [rewrite Forall_forall in I; apply (I c); auto|lia].
    + intros b' a Jb' W' A' N. cbn [h_mem]. split; [apply set_word_neq; auto|auto].
Qed.

Lemma inv0 m0 : inv m0 (heap0 m0) [].
Proof.
  exists [], []. split; [|split; [constructor|split; [auto|intros r len a []]]].
  split; [split; constructor|]. split; [intros c []|]. split; [reflexivity|]. split; [cbn; lia|constructor].
Qed.
Lemma runs_inv pagesz m0 : page_ok pagesz -> forall h l os h' l', runs pagesz h l os h' l' -> inv m0 h l -> inv m0 h' l'.
Proof.
  intros Pg h l os h' l' R. induction R as [|h l o h1 r os h2 l2 V E R IH]; intros I; [auto|].
  destruct (step_ok pagesz m0 h l o Pg I V) as (h1' & r' & E' & I' & _). rewrite E in E'. inversion E'; subst. auto.
Qed.
Lemma runs_keep pagesz m0 b a : page_ok pagesz -> a mod 8 = 0 -> word_inside b a -> forall h l os h' l', runs pagesz h l os h' l' -> inv m0 h l -> In b l -> Forall (spares b a) os ->
  h_mem h' a = h_mem h a /\ In b l'.
Proof.
  intros Pg A W h l os h' l' R. induction R as [|h l o h1 r os h2 l2 V E R IH]; intros I J S; [auto|]. inversion S; subst.
  destruct (step_ok pagesz m0 h l o Pg I V) as (h1' & r' & E' & I' & _ & _ & K). rewrite E in E'. inversion E'; subst. destruct (K b a J W A) as [K1 K2]; auto.
  destruct (IH I' K2) as [K3 K4]; auto. split; [congruence|auto].
Qed.
Lemma free_elements_fun m : forall head l, free_elements m head l -> forall l', free_elements m head l' -> l = l'.
Proof. induction 1 as [|a nx r N E F IH]; intros l' H; inversion H; subst; auto; try congruence. rewrite E in H1. inversion H1; subst. f_equal. auto. Qed.
Lemma chain_elements m : forall fr head, chain m head fr -> (forall c, In c fr -> okc c) -> free_elements m head (map fst fr).
Proof.
  induction fr as [|c fr IH]; intros head H O; cbn in *; [subst; constructor|]. destruct H as (-> & nx & Hn & H). destruct (O c) as (O1 & _); [auto|].
  econstructor; [lia|eauto|]. apply IH; auto.
Qed.
