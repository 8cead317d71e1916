(** Trace-level theorems for the hash table (operations sequences, enumeration). *)
From Verif Require Import Base ListFacts HashModel HashProofs SpecHash.
From Coq Require Import Permutation.

Section Domain.
Context {K D : Type} (P : K -> Prop) (hf : K -> Z) (cmp : K -> K -> Z).
Context (CO : cmp_ok P hf cmp).

Lemma match_eq k' k : P k' -> P k -> match_key hf cmp k' k -> k' = k.
Proof. intros Pk' Pk [H1 H2]. apply CO; auto. Qed.

Lemma match_refl k : P k -> match_key hf cmp k k.
Proof. intros Pk. split; auto. apply CO; auto. Qed.

Definition keys_in (c : list (K * D)) : Prop := Forall (fun p => P (fst p)) c.

Lemma keys_in_In c k d : keys_in c -> In (k, d) c -> P k.
Proof. intros H Hin. exact (proj1 (Forall_forall _ _) H _ Hin). Qed.

Lemma keys_in_perm c c' : Permutation c c' -> keys_in c -> keys_in c'.
Proof. intros HP. apply Permutation_Forall; auto. Qed.

(** *** bag refinement *)
Lemma hstep_bag (t : htable K D) l c o : ht_inv hf cmp t l c -> keys_in c -> P (op_key o) ->
  exists t' x l' c', hstep t o = Ok (t', x) /\ ht_inv hf cmp t' l' c' /\ keys_in c' /\
    (forall b, Permutation b c -> exists b', bag_step b o x b' /\ Permutation b' c').
Proof.
  intros I HK HP. destruct o as [k d|k|k]; cbn [hstep op_key] in *.
  - destruct (addto_spec t l c k d I) as (t' & l' & c' & H1 & H2 & H3 & _).
    rewrite H1. cbn [bind]. exists t', RAdded, l', ((k, d) :: c'). split; [auto|]. split; [auto|].
    split; [constructor; [exact HP|eapply keys_in_perm; eauto]|].
    intros b Hb. exists ((k, d) :: b). split; [constructor|]. constructor. etransitivity; eauto.
  - destruct (remove_spec t l c k I) as [(t' & l1 & i & l2 & c1 & k' & d & c2 & e & H1 & -> & -> & _ & H2 & H3 & _)|[H1 H2]];
    rewrite H1; cbn [bind].
    + assert (Hk' : P k') by (eapply keys_in_In; [exact HK|apply in_elt]).
      assert (k' = k) by (apply match_eq; auto). subst k'.
      exists t', (RRemoved true), (l1 ++ l2), (c1 ++ c2). split; [auto|]. split; [auto|]. split.
      { unfold keys_in in *. rewrite Forall_app in *. destruct HK as [Ha Hb]. inversion Hb; auto. }
      intros b Hb. exists (c1 ++ c2). split; [|reflexivity]. apply (bag_rem_hit _ _ d). rewrite Hb. symmetry. apply Permutation_middle.
    + exists t, (RRemoved false), l, c. split; [auto|]. split; [auto|]. split; [auto|].
      intros b Hb. exists b. split; [|auto]. constructor. intros d Hin. apply (Permutation_in _ Hb) in Hin.
      apply (H2 k d Hin). apply match_refl; auto.
  - destruct (lookup_hashtable_spec t l c k I) as [(k' & d & H1 & H2 & H3)|[H1 H2]]; rewrite H1; cbn [bind].
    + assert (k' = k) by (apply match_eq; auto; eapply keys_in_In; eauto). subst k'.
      exists t, (RFound (Some d)), l, c. split; [auto|]. split; [auto|]. split; [auto|].
      intros b Hb. exists b. split; [|auto]. constructor. eapply Permutation_in; [symmetry; exact Hb|auto].
    + exists t, (RFound None), l, c. split; [auto|]. split; [auto|]. split; [auto|].
      intros b Hb. exists b. split; [|auto]. constructor. intros d Hin. apply (Permutation_in _ Hb) in Hin.
      apply (H2 k d Hin). apply match_refl; auto.
Qed.

Lemma hrun_bag ops : forall (t : htable K D) l c, ht_inv hf cmp t l c -> keys_in c ->
  Forall (fun o => P (op_key o)) ops ->
  exists t' xs l' c', hrun t ops = Ok (t', xs) /\ ht_inv hf cmp t' l' c' /\ keys_in c' /\
    (forall b, Permutation b c -> exists b', bag_run b ops xs b' /\ Permutation b' c').
Proof.
  induction ops as [|o ops IH]; intros t l c I HK HP; cbn [hrun].
  - exists t, [], l, c. split; [auto|]. split; [auto|]. split; [auto|].
    intros b Hb. exists b. split; [constructor|auto].
  - inversion HP as [|? ? HPo HPr]; subst.
    destruct (hstep_bag t l c o I HK HPo) as (t1 & x & l1 & c1 & H1 & I1 & K1 & B1). rewrite H1. cbn [bind].
    destruct (IH t1 l1 c1 I1 K1 HPr) as (t2 & xs & l2 & c2 & H2 & I2 & K2 & B2). rewrite H2. cbn [bind].
    exists t2, (x :: xs), l2, c2. split; [auto|]. split; [auto|]. split; [auto|].
    intros b Hb. destruct (B1 b Hb) as (b1 & Hs1 & Hp1). destruct (B2 b1 Hp1) as (b2 & Hs2 & Hp2).
    exists b2. split; [econstructor; eauto|auto].
Qed.

(** *** map refinement *)
Context (eqb : K -> K -> bool) (EO : eqb_ok eqb).

Lemma eqb_refl k : eqb k k = true.
Proof. apply EO; reflexivity. Qed.
Lemma eqb_neq a b : a <> b -> eqb a b = false.
Proof. intros H. destruct (eqb a b) eqn:E; auto. apply EO in E; contradiction. Qed.

Lemma aget_Some (m : list (K * D)) k d : aget eqb m k = Some d -> In (k, d) m.
Proof.
  unfold aget. destruct (find _ m) as [[k' d']|] eqn:Hf; [|discriminate].
  apply find_some in Hf as [H1 H2]. cbn in *. apply EO in H2. intros H. injection H as <-. subst; auto.
Qed.
Lemma aget_None (m : list (K * D)) k : aget eqb m k = None -> forall d, ~ In (k, d) m.
Proof.
  unfold aget. destruct (find _ m) as [[k' d']|] eqn:Hf; [discriminate|].
  intros _ d Hin. pose proof (find_none _ _ Hf _ Hin) as H. cbn in H. rewrite eqb_refl in H. discriminate.
Qed.
Lemma aget_In (m : list (K * D)) k d : NoDup (map fst m) -> In (k, d) m -> aget eqb m k = Some d.
Proof.
  intros HN Hin. destruct (aget eqb m k) as [d'|] eqn:Hg.
  - apply aget_Some in Hg. f_equal.
    clear - HN Hin Hg. induction m as [|[a b] m IH]; [destruct Hin|]. cbn in HN. inversion HN as [|? ? Ha HN']; subst.
    assert (Hfst : forall z, In (a, z) m -> False) by (intros z Hz; apply Ha; apply in_map with (f := fst) in Hz; exact Hz).
    destruct Hin as [E1|Hin], Hg as [E2|Hg]; auto.
    + congruence.
    + injection E1 as -> ->. destruct (Hfst _ Hg).
    + injection E2 as -> ->. destruct (Hfst _ Hin).
  - destruct (aget_None _ _ Hg _ Hin).
Qed.

Lemma arem_absent (m : list (K * D)) k : (forall d, ~ In (k, d) m) -> arem eqb m k = m.
Proof.
  intros H. unfold arem. induction m as [|[a b] m IH]; cbn; [auto|].
  rewrite eqb_neq. 2:{ intros ->. apply (H b). left; auto. }
  cbn. f_equal. apply IH. intros d Hd. apply (H d). right; auto.
Qed.

Lemma arem_split (c1 : list (K * D)) k d c2 : NoDup (map fst (c1 ++ (k, d) :: c2)) -> arem eqb (c1 ++ (k, d) :: c2) k = c1 ++ c2.
Proof.
  intros HN. rewrite map_app in HN. cbn in HN. apply NoDup_split_neq in HN as (H1 & H2 & _).
  assert (Hx : forall c : list (K * D), ~ In k (map fst c) -> arem eqb c k = c).
  { intros c Hc. apply arem_absent. intros d' Hin. apply Hc. apply in_map with (f := fst) in Hin. exact Hin. }
  unfold arem in *. rewrite filter_app. cbn. rewrite eqb_refl. cbn. rewrite Hx, Hx by auto. reflexivity.
Qed.

Lemma perm_fst (c c' : list (K * D)) : Permutation c c' -> NoDup (map fst c) -> NoDup (map fst c').
Proof. intros HP. apply Permutation_NoDup. apply Permutation_map; auto. Qed.

Lemma arem_perm (m m' : list (K * D)) k : Permutation m m' -> Permutation (arem eqb m k) (arem eqb m' k).
Proof.
  unfold arem. intros HP. induction HP as [|x l l' HP IH|x y l|l l' l'' H1 IH1 H2 IH2]; cbn; auto.
  - destruct (negb (eqb (fst x) k)); auto.
  - destruct (negb (eqb (fst x) k)), (negb (eqb (fst y) k)); auto. apply perm_swap.
  - etransitivity; eauto.
Qed.

Lemma arem_nodup (m : list (K * D)) k : NoDup (map fst m) -> NoDup (map fst (arem eqb m k)).
Proof.
  unfold arem. induction m as [|[a b] m IH]; cbn; auto. intros HN. inversion HN as [|? ? Ha HN']; subst.
  destruct (negb (eqb a k)); cbn; auto. constructor; auto.
  intros Hin. apply Ha. apply in_map_iff in Hin as ([x y] & Hx & Hy). apply filter_In in Hy as [Hy _].
  cbn in Hx; subst. apply in_map_iff. eexists; split; [|exact Hy]. reflexivity.
Qed.

Lemma aget_perm (m m' : list (K * D)) k : Permutation m m' -> NoDup (map fst m) -> aget eqb m k = aget eqb m' k.
Proof.
  intros HP HN. destruct (aget eqb m k) as [d|] eqn:H1.
  - symmetry. apply aget_In; [eapply perm_fst; eauto|]. apply (Permutation_in _ HP). apply aget_Some; auto.
  - destruct (aget eqb m' k) as [d|] eqn:H2; auto.
    apply aget_Some in H2. apply (Permutation_in _ (Permutation_sym HP)) in H2.
    destruct (aget_None _ _ H1 _ H2).
Qed.

(** the table's pairs [c] against the abstract list [m]: same up to order, and in the same order
    while no growth has been necessary *)
Lemma hstep_map (t : htable K D) l c m o : ht_inv hf cmp t l c -> keys_in c -> P (op_key o) ->
  NoDup (map fst c) -> Permutation m c ->
  (match o with HAdd k _ => aget eqb m k = None | _ => True end) ->
  exists t' l' c', hstep t o = Ok (t', snd (astep eqb m o)) /\ ht_inv hf cmp t' l' c' /\ keys_in c' /\
    NoDup (map fst c') /\ Permutation (fst (astep eqb m o)) c' /\
    (m = c -> (match o with HAdd _ _ => ht_count t <= ht_size t / 2 | _ => True end) ->
      fst (astep eqb m o) = c' /\ ht_size t' = ht_size t).
Proof.
  intros I HK HP HN HM HA. destruct o as [k d|k|k]; cbn [hstep op_key astep fst snd] in *.
  - destruct (addto_spec t l c k d I) as (t' & l' & c' & H1 & H2 & H3 & H4 & _).
    rewrite H1. cbn [bind]. exists t', l', ((k, d) :: c'). split; [auto|]. split; [auto|].
    split; [constructor; [exact HP|eapply keys_in_perm; eauto]|].
    split; [|split].
    + cbn. constructor; [|eapply perm_fst; eauto].
      intros Hin. apply in_map_iff in Hin as ([k' d'] & E & Hin). cbn in E; subst k'.
      apply (Permutation_in _ (Permutation_sym H3)) in Hin. apply (Permutation_in _ (Permutation_sym HM)) in Hin.
      exact (aget_None _ _ HA _ Hin).
    + constructor. etransitivity; eauto.
    + intros -> Hle. destruct (H4 Hle) as [-> ?]. auto.
  - destruct (remove_spec t l c k I) as [(t' & l1 & i & l2 & c1 & k' & d & c2 & e & H1 & -> & -> & _ & H2 & H3 & H4 & _)|[H1 H2]];
    rewrite H1; cbn [bind].
    + assert (Hk' : P k') by (eapply keys_in_In; [exact HK|apply in_elt]).
      assert (k' = k) by (apply match_eq; auto). subst k'.
      assert (Hg : aget eqb m k = Some d).
      { apply aget_In; [eapply perm_fst; [symmetry; exact HM|exact HN]|]. apply (Permutation_in _ (Permutation_sym HM)). apply in_elt. }
      rewrite Hg. pose proof (arem_split _ _ _ _ HN) as Hrem.
      exists t', (l1 ++ l2), (c1 ++ c2). split; [auto|]. split; [auto|]. split.
      { unfold keys_in in *. rewrite Forall_app in *. destruct HK as [Ha Hb]. inversion Hb; auto. }
      split; [rewrite <- Hrem; apply arem_nodup; exact HN|].
      split; [rewrite <- Hrem; apply arem_perm; exact HM|].
      intros -> _. split; [exact Hrem|exact H4].
    + assert (Hn : forall d, ~ In (k, d) m).
      { intros d Hin. apply (Permutation_in _ HM) in Hin. apply (H2 k d Hin). apply match_refl; auto. }
      destruct (aget eqb m k) as [d|] eqn:Hg; [apply aget_Some in Hg; destruct (Hn _ Hg)|].
      rewrite (arem_absent _ _ Hn). exists t, l, c. auto 8.
  - destruct (lookup_hashtable_spec t l c k I) as [(k' & d & H1 & H2 & H3)|[H1 H2]]; rewrite H1; cbn [bind].
    + assert (k' = k) by (apply match_eq; auto; eapply keys_in_In; eauto). subst k'.
      assert (Hg : aget eqb m k = Some d).
      { apply aget_In; [eapply perm_fst; [symmetry; exact HM|exact HN]|]. apply (Permutation_in _ (Permutation_sym HM)); auto. }
      rewrite Hg. exists t, l, c. auto 8.
    + assert (Hn : forall d, ~ In (k, d) m).
      { intros d Hin. apply (Permutation_in _ HM) in Hin. apply (H2 k d Hin). apply match_refl; auto. }
      destruct (aget eqb m k) as [d|] eqn:Hg; [apply aget_Some in Hg; destruct (Hn _ Hg)|].
      exists t, l, c. auto 8.
Qed.

Lemma arem_length (m : list (K * D)) k : (length (arem eqb m k) <= length m)%nat.
Proof. unfold arem. induction m as [|x m IH]; cbn; [lia|]. destruct (negb _); cbn; lia. Qed.

Lemma count_adds_nonneg (ops : list (hop K D)) : 0 <= count_adds ops.
Proof. induction ops as [|[k d|k|k] ops IH]; cbn [count_adds]; lia. Qed.

Lemma hrun_map ops : forall (t : htable K D) l c m, ht_inv hf cmp t l c -> keys_in c ->
  Forall (fun o => P (op_key o)) ops -> NoDup (map fst c) -> Permutation m c -> adds_absent eqb m ops ->
  exists t' l' c', hrun t ops = Ok (t', snd (arun eqb m ops)) /\ ht_inv hf cmp t' l' c' /\ keys_in c' /\
    NoDup (map fst c') /\ Permutation (fst (arun eqb m ops)) c' /\
    (m = c -> ht_count t + count_adds ops <= ht_size t / 2 + 1 ->
      fst (arun eqb m ops) = c' /\ ht_size t' = ht_size t).
Proof.
  induction ops as [|o ops IH]; intros t l c m I HK HP HN HM HA; cbn [hrun arun].
  - exists t, l, c. cbn. auto 8.
  - inversion HP as [|? ? HPo HPr]; subst. cbn [adds_absent] in HA. destruct HA as [HAo HAr].
    destruct (hstep_map t l c m o I HK HPo HN HM HAo) as (t1 & l1 & c1 & H1 & I1 & K1 & N1 & M1 & E1).
    destruct (astep eqb m o) as [m1 x] eqn:Hst. cbn [fst snd] in *. rewrite H1. cbn [bind].
    destruct (IH t1 l1 c1 m1 I1 K1 HPr N1 M1 HAr) as (t2 & l2 & c2 & H2 & I2 & K2 & N2 & M2 & E2).
    destruct (arun eqb m1 ops) as [m2 xs]. cbn [fst snd] in *. rewrite H2. cbn [bind].
    exists t2, l2, c2. split; [auto|]. split; [auto|]. split; [auto|]. split; [auto|]. split; [auto|].
    intros Hmc Hcnt. subst m.
    pose proof (count_adds_nonneg ops) as Hnn.
    assert (Hcnt1 : ht_count t1 <= ht_count t + (match o with HAdd _ _ => 1 | _ => 0 end)).
    { rewrite (inv_count_c I1), (inv_count_c I), <- (Permutation_length M1).
      destruct o as [k d|k|k]; cbn in Hst; injection Hst as <- <-; cbn [length]; try lia.
      pose proof (arem_length c k). lia. }
    destruct E1 as [E1 S1]; [auto|destruct o; cbn [count_adds] in Hcnt; auto; lia|].
    destruct E2 as [E2 S2]; [auto|rewrite S1; destruct o; cbn [count_adds] in Hcnt; lia|].
    split; congruence.
Qed.

(** *** enumeration *)
Lemma foreach_pure {S} (f : K -> D -> S -> S * Z) (t : htable K D) :
  forall l prev c s fuel, linked (ht_table t) prev l -> Forall2 (holds (ht_table t)) l c ->
  (length l <= fuel)%nat ->
  foreach_loop fuel (fun _ => t) (pure_cb f) (hd_error l) s = Ok (iter_pairs f c s).
Proof.
  induction l as [|i l IH]; intros prev c s fuel HL HF Hfu.
  - inversion HF; subst. cbn. destruct fuel; reflexivity.
  - inversion HF as [|? [k d] ? c' Hh HF']; subst. cbn [length] in Hfu. destruct fuel as [|fuel]; [lia|].
    cbn [linked] in HL. destruct HL as (e & He & Hp & Hn & HL).
    destruct Hh as (e' & He' & _ & Hk & Hd). rewrite He in He'. injection He' as <-. cbn [fst snd] in *.
    cbn [hd_error foreach_loop]. rewrite He, Hk, Hd. cbn [pure_cb bind iter_pairs].
    destruct (f k d s) as [s' z]. destruct (Z.eqb_spec z 0) as [->|Hz]; cbn [negb]; [|reflexivity].
    rewrite Hn. eapply IH; eauto. lia.
Qed.

Lemma l_le_table {t : htable K D} {l c} : ht_inv hf cmp t l c -> (length l <= length (ht_table t))%nat.
Proof.
  intros I. rewrite <- (seq_length (length (ht_table t)) 0).
  apply NoDup_incl_length; [apply (inv_nodup _ _ _ _ _ I)|].
  intros i Hi. destruct (inv_in_l I _ Hi) as (kd & _ & e & He & _). apply nth_error_Some_lt in He.
  apply in_seq. lia.
Qed.

Lemma foreach_pure_inv {S} (f : K -> D -> S -> S * Z) (t : htable K D) l c s : ht_inv hf cmp t l c ->
  foreach_hash_entry (fun _ => t) (pure_cb f) s = Ok (iter_pairs f c s).
Proof.
  intros I. unfold foreach_hash_entry. rewrite (inv_head _ _ _ _ _ I).
  eapply foreach_pure; [apply (inv_links _ _ _ _ _ I)|apply (inv_cont _ _ _ _ _ I)|apply (l_le_table I)].
Qed.

(** Generic iterate-and-delete lemma: a callback that leaves the table alone or removes the
    current key behaves like a plain fold over the pairs present at the start. *)
Fixpoint fold_cb {S} (cb : option K -> option D -> S -> outcome (S * Z)) (c : list (K * D)) (s : S) : outcome S :=
  match c with
  | [] => Ok s
  | (k, d) :: r => do ' (s', _) <- cb (Some k) (Some d) s; fold_cb cb r s'
  end.

Lemma foreach_del {S} (get : S -> htable K D) (cb : option K -> option D -> S -> outcome (S * Z))
    (Q : S -> list (K * D) -> list (K * D) -> Prop) :
  (* Q s kept rest : state after having processed some pairs, with [kept ++ rest] in the table *)
  (forall s kept k d rest, Q s kept ((k, d) :: rest) -> P k ->
     exists s', cb (Some k) (Some d) s = Ok (s', 0) /\
       ((get s' = get s /\ Q s' (kept ++ [(k, d)]) rest) \/
        (removefrom_hashtable (get s) k = Ok (get s', true) /\ Q s' kept rest))) ->
  forall rest lr kept lk s fuel, Q s kept rest -> ht_inv hf cmp (get s) (lk ++ lr) (kept ++ rest) ->
    length lk = length kept -> length lr = length rest -> keys_in (kept ++ rest) -> NoDup (map fst (kept ++ rest)) ->
    (length rest <= fuel)%nat ->
  exists s' kept' l', foreach_loop fuel get cb (hd_error lr) s = Ok (s', 0) /\ fold_cb cb rest s = Ok s' /\
    Q s' kept' [] /\ ht_inv hf cmp (get s') l' kept' /\ NoDup (map fst kept') /\ keys_in kept'.
Proof.
  intros Hstep. induction rest as [|[k d] rest IH]; intros lr kept lk s fuel HQ I Hlk Hlr HK HN Hfu.
  - destruct lr; [|discriminate]. rewrite !app_nil_r in *. exists s, kept, lk. cbn.
    split; [destruct fuel; reflexivity|]. auto 8.
  - destruct lr as [|i lr]; [discriminate|]. cbn [length] in *. destruct fuel as [|fuel]; [lia|].
    assert (Pk : P k) by (eapply keys_in_In; [exact HK|apply in_elt]).
    pose proof (inv_cont _ _ _ _ _ I) as HF.
    destruct (Forall2_app_inv_mid _ _ _ _ _ HF) as (c1 & y & c2 & Ec & HF1 & Hh & HF2).
    assert (c1 = kept /\ y = (k, d) /\ c2 = rest) as (-> & -> & ->).
    { apply Forall2_length in HF1. rewrite Hlk in HF1. clear - Ec HF1.
      revert c1 Ec HF1. induction kept as [|a kept IHk]; intros [|b c1] Ec HF1; cbn in *; try discriminate; try (injection Ec; auto).
      intros E Eb. subst. destruct (IHk c1) as (-> & -> & ->); auto. }
    destruct (linked_app _ _ _ _ _ (inv_links _ _ _ _ _ I)) as (e & He & Hn & _).
    destruct Hh as (e' & He' & Hst & Hk & Hd). rewrite He in He'. injection He' as <-. cbn [fst snd] in *.
    cbn [hd_error foreach_loop fold_cb]. rewrite He, Hk, Hd.
    destruct (Hstep s kept k d rest HQ Pk) as (s' & Hcb & Hcase). rewrite Hcb. cbn [bind negb Z.eqb].
    destruct Hcase as [[Hget HQ']|[Hrem HQ']].
    + rewrite Hget, He, Hn.
      apply (IH lr (kept ++ [(k, d)]) (lk ++ [i])); auto; try lia.
      * rewrite Hget, <- !app_assoc. exact I.
      * rewrite !app_length. cbn. lia.
      * rewrite <- app_assoc. exact HK.
      * rewrite <- app_assoc. exact HN.
    + destruct (remove_spec (get s) _ _ k I) as [(t' & l1 & j & l2 & d1 & k' & dd & d2 & ej & H1 & El & Ecc & Hlen & H2 & H3 & H4 & H5 & H6)|[H1 H2]];
      [|rewrite H1 in Hrem; discriminate].
      rewrite H1 in Hrem. injection Hrem as ->.
      assert (Pk' : P k'). { eapply keys_in_In; [exact HK|]. rewrite Ecc. apply in_elt. }
      assert (k' = k) by (apply match_eq; auto). subst k'.
      (* the removed position is the current one because keys are distinct *)
      assert (Hd1 : length d1 = length kept).
      { clear - HN Ecc. revert d1 Ecc HN. induction kept as [|[a b] kept IHk]; intros [|[a' b'] d1] Ecc HN; cbn in *.
        - reflexivity.
        - injection Ecc as -> -> E2. inversion HN as [|? ? Hx _]; subst. exfalso. apply Hx. rewrite map_app. cbn. apply in_elt.
        - injection Ecc as -> -> E2. inversion HN as [|? ? Hx _]; subst. exfalso. apply Hx. rewrite map_app. cbn. apply in_elt.
        - injection Ecc as -> -> E2. inversion HN; subst. f_equal. eapply IHk; eauto. }
      assert (l1 = lk /\ j = i /\ l2 = lr) as (-> & -> & ->).
      { assert (HL1 : length l1 = length lk) by lia. clear - El HL1.
        revert l1 El HL1. induction lk as [|a lk IHk]; intros [|b l1] El HL1; cbn in *; try discriminate; injection El; auto.
        intros E Eb. subst. destruct (IHk l1) as (-> & -> & ->); auto. }
      assert (d1 = kept /\ d2 = rest) as (-> & ->).
      { clear - Ecc Hd1. revert d1 Ecc Hd1. induction kept as [|a kept IHk]; intros [|b d1] Ecc Hd1; cbn in *; try discriminate; injection Ecc; auto.
        intros E Eb. subst. destruct (IHk d1) as (-> & ->); auto. }
      rewrite H5, H6. apply (IH lr kept lk); auto; try lia.
      * clear - HK. unfold keys_in in *. rewrite Forall_app in *. destruct HK as [Ha Hb]. inversion Hb; auto.
      * rewrite map_app in *. cbn in HN. apply NoDup_split_neq in HN. tauto.
Qed.

Lemma removing_iter (sel : K -> D -> bool) (t : htable K D) l c : ht_inv hf cmp t l c -> keys_in c -> NoDup (map fst c) ->
  exists t' l', foreach_hash_entry fst (removing_cb sel) (t, []) = Ok ((t', c), 0) /\
    ht_inv hf cmp t' l' (filter (fun p => negb (sel (fst p) (snd p))) c).
Proof.
  intros I HK HN. unfold foreach_hash_entry. cbn [fst].
  set (flt := filter (fun p : K * D => negb (sel (fst p) (snd p)))).
  set (Q := fun (s : htable K D * list (K * D)) (kept rest : list (K * D)) =>
     kept = flt (snd s) /\ snd s ++ rest = c /\ exists lx, ht_inv hf cmp (fst s) lx (kept ++ rest) /\ NoDup (map fst (kept ++ rest)) /\ keys_in (kept ++ rest)).
  destruct (foreach_del fst (removing_cb sel) Q) with (rest := c) (lr := l) (kept := @nil (K * D)) (lk := @nil nat) (s := (t, @nil (K * D)))
     (fuel := length (ht_table t)) as (s' & kept' & l' & H1 & H2 & H3 & H4 & _).
  - intros [tt vis] kept k d rest (Hkept & Hc & lx & Ix & Nx & Kx) Pk. cbn [fst snd] in *.
    assert (Hk2 : flt (vis ++ [(k, d)]) = kept ++ flt [(k, d)]) by (unfold flt; rewrite filter_app; fold flt; congruence).
    cbn [removing_cb fst snd]. destruct (sel k d) eqn:Hsel.
    + destruct (remove_spec tt _ _ k Ix) as [(t' & l1 & j & l2 & d1 & k' & dd & d2 & ej & R1 & El & Ecc & _ & R2 & R3 & _)|[R1 R2]].
      * assert (Pk' : P k'). { eapply keys_in_In; [exact Kx|]. rewrite Ecc. apply in_elt. }
        assert (k' = k) by (apply match_eq; auto). subst k'.
        assert (Hdr : d1 ++ d2 = kept ++ rest).
        { rewrite <- (arem_split kept k d rest Nx), Ecc. symmetry. apply arem_split. rewrite <- Ecc. exact Nx. }
        rewrite R1. cbn [bind]. eexists; split; [reflexivity|]. right. split; [reflexivity|].
        split; [|split].
        { cbn [snd]. rewrite Hk2. unfold flt at 1. cbn. rewrite Hsel. cbn. rewrite app_nil_r; reflexivity. }
        { cbn [snd]. rewrite <- app_assoc. exact Hc. }
        exists (l1 ++ l2). rewrite <- Hdr. split; [exact R3|]. rewrite Hdr. split.
        { rewrite map_app in *. cbn in Nx. apply NoDup_split_neq in Nx. tauto. }
        { clear - Kx. unfold keys_in in *. rewrite Forall_app in *. destruct Kx as [Ha Hb]. inversion Hb; auto. }
      * exfalso. apply (R2 k d); [apply in_elt|]. apply match_refl; auto.
    + eexists; split; [reflexivity|]. left. split; [reflexivity|].
      split; [|split].
      { cbn [snd]. rewrite Hk2. unfold flt at 1. cbn. rewrite Hsel. reflexivity. }
      { cbn [snd]. rewrite <- app_assoc. exact Hc. }
      exists lx. rewrite <- app_assoc. auto.
  - split; [reflexivity|]. split; [reflexivity|]. exists l. auto.
  - exact I.
  - reflexivity.
  - exact (Forall2_length _ _ _ (inv_cont _ _ _ _ _ I)).
  - exact HK.
  - exact HN.
  - rewrite <- (Forall2_length _ _ _ (inv_cont _ _ _ _ _ I)). apply (l_le_table I).
  - destruct s' as [t' vis]. destruct H3 as (Hkept & Hvis & _). cbn [snd fst] in *. rewrite app_nil_r in Hvis. subst vis.
    exists t', l'. rewrite (inv_head _ _ _ _ _ I). split; [exact H1|]. rewrite <- Hkept. exact H4.
Qed.
End Domain.

Lemma inuse_count {K D} {hf cmp} {t : htable K D} {l c} : ht_inv hf cmp t l c -> inuse_slots t = ht_count t.
Proof.
  intros I. rewrite (inv_count_c I), (Permutation_length (live_perm I)). unfold inuse_slots. f_equal.
  pose proof (inv_good I) as HG. induction (ht_table t) as [|e es IH]; cbn; [reflexivity|].
  inversion HG as [|? ? He HG']; subst. destruct (he_status e) eqn:Hs; auto.
  destruct (He Hs) as (k & d & -> & -> & _). cbn. f_equal. auto.
Qed.

(** ** The property theorems (restated in PropsHash.v) *)

Lemma hash_map_thm : forall K D (P : K -> Prop) hf cmp eqb ps n (ops : list (hop K D)),
  48 <= ps -> 0 < n -> cmp_ok P hf cmp -> eqb_ok eqb ->
  Forall (fun o => P (op_key o)) ops -> adds_absent eqb [] ops ->
  exists t0 t', create_hashtable ps n hf cmp = Ok t0 /\
    hrun t0 ops = Ok (t', snd (arun eqb [] ops)).
Proof.
  intros K D P hf cmp eqb ps n ops Hps Hn CO EO HP HA.
  destruct (create_spec (D := D) ps n hf cmp Hps Hn) as (t0 & H0 & I0 & _).
  destruct (hrun_map P hf cmp CO eqb EO ops t0 [] [] [] I0) as (t' & l' & c' & H1 & _); auto; try constructor.
  eauto.
Qed.

Definition collect_cb {K D} (k : K) (d : D) (acc : list (K * D)) : list (K * D) * Z := (acc ++ [(k, d)], 0).

Lemma iter_collect {K D} (c : list (K * D)) acc : iter_pairs collect_cb c acc = (acc ++ c, 0).
Proof.
  revert acc. induction c as [|[k d] c IH]; intros acc; cbn; [rewrite app_nil_r; reflexivity|].
  rewrite IH, <- app_assoc. reflexivity.
Qed.

Lemma hash_bag_thm : forall K D (P : K -> Prop) hf cmp ps n (ops : list (hop K D)),
  48 <= ps -> 0 < n -> cmp_ok P hf cmp -> Forall (fun o => P (op_key o)) ops ->
  exists t0 t' rs bag c, create_hashtable ps n hf cmp = Ok t0 /\
    hrun t0 ops = Ok (t', rs) /\ bag_run [] ops rs bag /\
    foreach_hash_entry (fun _ => t') (pure_cb (fun k d acc => (acc ++ [(k, d)], 0))) [] = Ok (c, 0) /\
    Permutation c bag.
Proof.
  intros K D P hf cmp ps n ops Hps Hn CO HP.
  destruct (create_spec (D := D) ps n hf cmp Hps Hn) as (t0 & H0 & I0 & _).
  destruct (hrun_bag P hf cmp CO ops t0 [] [] I0) as (t' & xs & l' & c' & H1 & I1 & K1 & B1); auto; try constructor.
  destruct (B1 [] (Permutation_refl _)) as (b & Hb & Hp).
  exists t0, t', xs, b, c'. repeat split; auto.
  - change (fun k d acc => (acc ++ [(k, d)], 0)) with (@collect_cb K D).
    rewrite (foreach_pure_inv _ _ _ _ _ _ _ I1), iter_collect. reflexivity.
  - symmetry; auto.
Qed.

Lemma hash_enum_thm : forall K D (P : K -> Prop) hf cmp ps n (ops : list (hop K D)),
  48 <= ps -> 0 < n -> cmp_ok P hf cmp -> Forall (fun o => P (op_key o)) ops ->
  exists t0 t' rs bag c, create_hashtable ps n hf cmp = Ok t0 /\
    hrun t0 ops = Ok (t', rs) /\ bag_run [] ops rs bag /\ Permutation c bag /\
    (forall (S : Type) (f : K -> D -> S -> S * Z) s,
       foreach_hash_entry (fun _ => t') (pure_cb f) s = Ok (iter_pairs f c s)) /\
    (forall eqb, eqb_ok eqb -> adds_absent eqb [] ops -> count_adds ops <= n / 2 + 1 ->
       c = fst (arun eqb [] ops)).
Proof.
  intros K D P hf cmp ps n ops Hps Hn CO HP.
  destruct (create_spec (D := D) ps n hf cmp Hps Hn) as (t0 & H0 & I0 & Hsz).
  destruct (hrun_bag P hf cmp CO ops t0 [] [] I0) as (t' & xs & l' & c' & H1 & I1 & K1 & B1); auto; try constructor.
  destruct (B1 [] (Permutation_refl _)) as (b & Hb & Hp).
  exists t0, t', xs, b, c'. repeat split; auto.
  - symmetry; auto.
  - intros S f s. apply (foreach_pure_inv _ _ _ _ _ _ _ I1).
  - intros eqb EO HA Hcnt.
    destruct (hrun_map P hf cmp CO eqb EO ops t0 [] [] [] I0) as (t2 & l2 & c2 & H2 & I2 & _ & _ & _ & E2); auto; try constructor.
    rewrite H1 in H2. injection H2 as <- _.
    destruct E2 as [E2 _]; [auto| |].
    { rewrite (inv_count_c I0). cbn [length]. assert (n / 2 <= ht_size t0 / 2) by (apply Z.div_le_mono; lia). lia. }
    rewrite E2.
    pose proof (foreach_pure_inv _ _ collect_cb _ _ _ [] I1) as F1.
    pose proof (foreach_pure_inv _ _ collect_cb _ _ _ [] I2) as F2.
    rewrite iter_collect in F1, F2. cbn in F1, F2. congruence.
Qed.

Lemma hash_del_thm : forall K D (P : K -> Prop) hf cmp eqb ps n (ops : list (hop K D)) (sel : K -> D -> bool),
  48 <= ps -> 0 < n -> cmp_ok P hf cmp -> eqb_ok eqb ->
  Forall (fun o => P (op_key o)) ops -> adds_absent eqb [] ops ->
  exists t0 t1 t2 rs c, create_hashtable ps n hf cmp = Ok t0 /\ hrun t0 ops = Ok (t1, rs) /\
    Permutation c (fst (arun eqb [] ops)) /\
    foreach_hash_entry fst (removing_cb sel) (t1, []) = Ok ((t2, c), 0) /\
    let left := filter (fun p => negb (sel (fst p) (snd p))) c in
    (forall (S : Type) (f : K -> D -> S -> S * Z) s,
       foreach_hash_entry (fun _ => t2) (pure_cb f) s = Ok (iter_pairs f left s)) /\
    (forall ops2, Forall (fun o => P (op_key o)) ops2 -> adds_absent eqb left ops2 ->
       exists t3, hrun t2 ops2 = Ok (t3, snd (arun eqb left ops2))).
Proof.
  intros K D P hf cmp eqb ps n ops sel Hps Hn CO EO HP HA.
  destruct (create_spec (D := D) ps n hf cmp Hps Hn) as (t0 & H0 & I0 & _).
  destruct (hrun_map P hf cmp CO eqb EO ops t0 [] [] [] I0) as (t1 & l1 & c & H1 & I1 & K1 & N1 & M1 & _); auto; try constructor.
  destruct (removing_iter P hf cmp CO eqb EO sel t1 l1 c I1 K1 N1) as (t2 & l2 & H2 & I2).
  exists t0, t1, t2, (snd (arun eqb [] ops)), c. split; [auto|]. split; [auto|]. split; [symmetry; auto|]. split; [auto|].
  cbn zeta. split.
  - intros S f s. apply (foreach_pure_inv _ _ _ _ _ _ _ I2).
  - intros ops2 HP2 HA2.
    destruct (hrun_map P hf cmp CO eqb EO ops2 t2 l2 _ (filter (fun p => negb (sel (fst p) (snd p))) c) I2)
      as (t3 & l3 & c3 & H3 & _); auto.
    + unfold keys_in in *. rewrite Forall_forall in *. intros x Hx. apply filter_In in Hx. apply K1; tauto.
    + clear - N1. induction c as [|[a b] c IH]; cbn; auto. inversion N1 as [|? ? Ha N1']; subst.
      destruct (negb (sel a b)); cbn; auto. constructor; auto. intros Hin. apply Ha.
      apply in_map_iff in Hin as (x & Hx & Hy). apply filter_In in Hy as [Hy _]. apply in_map_iff; eauto.
    + eauto.
Qed.

Lemma hash_load_thm : forall K D (P : K -> Prop) hf cmp ps n (ops : list (hop K D)),
  48 <= ps -> 0 < n -> cmp_ok P hf cmp -> Forall (fun o => P (op_key o)) ops ->
  exists t0 t rs, create_hashtable ps n hf cmp = Ok t0 /\ n <= ht_size t0 /\ hrun t0 ops = Ok (t, rs) /\
    Z.of_nat (length (ht_table t)) = ht_size t /\
    (forall k d, P k ->
       (exists r, lookup t k = Ok r) /\
       exists t2, addto_hashtable t k d = Ok t2 /\
         ht_size t2 = (if ht_size t / 2 <? inuse_slots t then 2 * ht_size t else ht_size t) /\
         inuse_slots t <= ht_size t2 / 2 /\
         inuse_slots t2 = inuse_slots t + 1).
Proof.
  intros K D P hf cmp ps n ops Hps Hn CO HP.
  destruct (create_spec (D := D) ps n hf cmp Hps Hn) as (t0 & H0 & I0 & Hsz).
  destruct (hrun_bag P hf cmp CO ops t0 [] [] I0) as (t & xs & l & c & H1 & I1 & K1 & B1); auto; try constructor.
  exists t0, t, xs. split; [auto|]. split; [auto|]. split; [auto|]. split; [apply (inv_len _ _ _ _ _ I1)|].
  intros k d Pk. split.
  - destruct (lookup_spec t l c k I1) as [(i & e & k' & dt & HL & _)|[HL _]]; eauto.
  - destruct (addto_spec t l c k d I1) as (t2 & l2 & c2 & H2 & I2 & HP2 & HS1 & HS2).
    exists t2. rewrite (inuse_count I1), (inuse_count I2). split; [auto|].
    pose proof (inv_load _ _ _ _ _ I1). pose proof (inv_pos _ _ _ _ _ I1) as Hp1.
    assert (ht_size t / 2 < ht_size t) by (apply Z.div_lt; lia).
    destruct (Z.ltb_spec (ht_size t / 2) (ht_count t)).
    + rewrite (HS2 H4). split; [auto|]. split.
      * rewrite Z.mul_comm, Z.div_mul; lia.
      * rewrite (inv_count_c I1), (inv_count_c I2). cbn [length]. rewrite (Permutation_length HP2). lia.
    + destruct (HS1 H4) as [-> Hs]. rewrite Hs. split; [auto|]. split; [auto|].
      rewrite (inv_count_c I1), (inv_count_c I2). cbn [length]. lia.
Qed.

(** strcmp is adequate for every hash function *)
Lemma libc_strcmp_eq0 a b : libc_strcmp a b = 0 <-> a = b.
Proof.
  revert b. induction a as [|x a IH]; intros [|y b]; cbn; try (split; [lia|discriminate]).
  - split; auto.
  - destruct (Z.eqb_spec x y) as [->|Hne].
    + rewrite IH. split; [congruence|intros H; injection H; auto].
    + destruct (x <? y); (split; [lia|congruence]).
Qed.

Lemma strcmp_cmp_ok (P : cstr -> Prop) hf : cmp_ok P hf libc_strcmp.
Proof. intros a b _ _ _. apply libc_strcmp_eq0. Qed.

Lemma cstr_eqb_ok : eqb_ok cstr_eqb.
Proof. intros a b. unfold cstr_eqb. destruct (cstr_eq_dec a b); split; congruence. Qed.
