(** How many slots the operations of src/hash.c look at. *)
From Verif Require Import Base ListFacts HashModel SpecHash HashProofs HashTrace SpecCost CoreMicro.
From Coq Require Import Permutation.

(** *** counting slots *)
Section Count.
Context {A : Type} (p : A -> bool).
Lemma count_idx (l : list A) : forall pre,
  length (filter (fun i => match nth_error (pre ++ l) i with Some e => p e | None => false end) (seq (length pre) (length l))) = length (filter p l).
Proof.
  induction l as [|a l IH]; intros pre; [reflexivity|]. cbn [length seq filter].
  rewrite nth_error_app2, Nat.sub_diag by lia. cbn [nth_error].
  specialize (IH (pre ++ [a])). rewrite app_length in IH. cbn [length] in IH. rewrite <- app_assoc in IH. cbn [app] in IH.
  replace (length pre + 1)%nat with (S (length pre)) in IH by lia.
  destruct (p a); cbn [length]; congruence.
Qed.
Lemma count_slots (l : list A) s d : (s < length l)%nat -> (d <= length l)%nat ->
  (forall d', (d' < d)%nat -> exists e, nth_error l (slot (length l) s d') = Some e /\ p e = true) ->
  (d <= length (filter p l))%nat.
Proof.
  intros Hs Hd H. rewrite <- (count_idx l []). cbn [app length].
  rewrite <- (seq_length d 0), <- (map_length (slot (length l) s)).
  apply NoDup_incl_length.
  - apply NoDup_nth_error. intros i j Hi E. rewrite map_length, seq_length in Hi.
    rewrite !nth_error_map in E.
    assert (Si : nth_error (seq 0 d) i = Some i) by (rewrite (nth_error_nth' (seq 0 d) O), seq_nth; rewrite ?seq_length; auto).
    rewrite Si in E. cbn in E. destruct (nth_error (seq 0 d) j) as [j'|] eqn:Sj; [|discriminate].
    assert (Hj : (j < d)%nat) by (apply nth_error_Some_lt in Sj; rewrite seq_length in Sj; auto).
    assert (Sj' : nth_error (seq 0 d) j = Some j) by (rewrite (nth_error_nth' (seq 0 d) O), seq_nth; rewrite ?seq_length; auto).
    rewrite Sj' in Sj. injection Sj as <-. cbn in E. injection E as E. apply slot_inj in E; auto; lia.
  - intros x Hx. apply in_map_iff in Hx as (d' & <- & Hd'). apply in_seq in Hd'.
    destruct (H d') as (e & He & Hp); [lia|]. apply filter_In. split; [|rewrite He; exact Hp].
    apply in_seq. split; [lia|]. apply slot_lt; lia.
Qed.
End Count.

Definition nonempty {K D} (e : hentry K D) : bool := match he_status e with EMPTY => false | _ => true end.
Definition inuse {K D} (e : hentry K D) : bool := match he_status e with INUSE => true | _ => false end.

(** *** lookup *)
Lemma lookup_enough {K D} (tbl : list (hentry K D)) cmp k h s : (s < length tbl)%nat ->
  forall fuel d full, (full + d = length tbl)%nat -> (d < length tbl)%nat -> (length (filter nonempty tbl) < fuel + d)%nat ->
  (forall d', (d' < d)%nat -> exists e, nth_error tbl (slot (length tbl) s d') = Some e /\ nonempty e = true) ->
  lookup_loop fuel tbl (length tbl) cmp k h (slot (length tbl) s d) s = lookup_loop full tbl (length tbl) cmp k h (slot (length tbl) s d) s.
Proof.
  intros Hs. induction fuel as [|f IH]; intros d full Hf Hd Hu Hb.
  - exfalso. pose proof (count_slots nonempty tbl s d Hs (Nat.lt_le_incl _ _ Hd) Hb). lia.
  - destruct full as [|full]; [lia|]. cbn [lookup_loop].
    destruct (nth_error_lt_Some tbl (slot (length tbl) s d)) as [e He]; [apply slot_lt; auto|]. rewrite He.
    assert (Hadv : nonempty e = true -> let index' := (if Nat.eqb (S (slot (length tbl) s d)) (length tbl) then O else S (slot (length tbl) s d)) in
      (if Nat.eqb index' s then Ok None else lookup_loop f tbl (length tbl) cmp k h index' s) =
      (if Nat.eqb index' s then Ok None else lookup_loop full tbl (length tbl) cmp k h index' s)).
    { intros Hne. cbn zeta. destruct (Nat.eq_dec (S d) (length tbl)) as [Hl|Hl].
      - rewrite slot_step_last, Nat.eqb_refl by auto. reflexivity.
      - rewrite slot_step by lia. replace (Nat.eqb (slot (length tbl) s (S d)) s) with false
          by (symmetry; apply Nat.eqb_neq; apply slot_neq_start; lia).
        apply IH; try lia. intros d' Hd'. destruct (Nat.eq_dec d' d) as [->|]; [eauto|]. apply Hb; lia. }
    unfold nonempty in Hadv. destruct (he_status e); cbn [bind]; [reflexivity|apply Hadv; reflexivity|].
    destruct (_ =? h); cbn [bind]; [|apply Hadv; reflexivity].
    destruct (he_key e); cbn [bind]; [|reflexivity]. destruct (_ =? 0); [reflexivity|apply Hadv; reflexivity].
Qed.

(** *** insert *)
Lemma probe_enough {K D} (tbl : list (hentry K D)) s : (s < length tbl)%nat ->
  forall fuel d full, (full + d = length tbl)%nat -> (d < length tbl)%nat -> (length (filter inuse tbl) < fuel + d)%nat ->
  (forall d', (d' < d)%nat -> exists e, nth_error tbl (slot (length tbl) s d') = Some e /\ inuse e = true) ->
  insert_probe fuel tbl (length tbl) (slot (length tbl) s d) s = insert_probe full tbl (length tbl) (slot (length tbl) s d) s.
Proof.
  intros Hs. induction fuel as [|f IH]; intros d full Hf Hd Hu Hb.
  - exfalso. pose proof (count_slots inuse tbl s d Hs (Nat.lt_le_incl _ _ Hd) Hb). lia.
  - destruct full as [|full]; [lia|]. cbn [insert_probe].
    destruct (nth_error_lt_Some tbl (slot (length tbl) s d)) as [e He]; [apply slot_lt; auto|]. rewrite He.
    destruct (he_status e) eqn:Est; [reflexivity|reflexivity|].
    destruct (Nat.eq_dec (S d) (length tbl)) as [Hl|Hl].
    + rewrite slot_step_last, Nat.eqb_refl by auto. reflexivity.
    + rewrite slot_step by lia. replace (Nat.eqb (slot (length tbl) s (S d)) s) with false
        by (symmetry; apply Nat.eqb_neq; apply slot_neq_start; lia).
      apply IH; try lia. intros d' Hd'. destruct (Nat.eq_dec d' d) as [->|]; [|apply Hb; lia].
      exists e. split; [auto|]. unfold inuse. rewrite Est. reflexivity.
Qed.

Section Inv.
Context {K D : Type} {hf : K -> Z} {cmp : K -> K -> Z}.

Lemma within_used (t : htable K D) l c k m : ht_inv hf cmp t l c -> used_slots t < Z.of_nat m -> lookup_within m t k = lookup t k.
Proof.
  intros I Hm. unfold lookup_within, lookup. rewrite (inv_hf _ _ _ _ _ I), (inv_cmp _ _ _ _ _ I).
  destruct (ht_size t =? 0); [reflexivity|]. rewrite (to_nat_size I). fold (start t (hf k)).
  pose proof (start_lt I (hf k)) as Hs.
  pose proof (lookup_enough (ht_table t) cmp k (hf k) (start t (hf k)) Hs m 0 (length (ht_table t))) as H.
  rewrite slot_0 in H by auto. apply H; try lia. unfold used_slots in Hm. unfold nonempty. lia.
Qed.
Lemma probe_inuse (t : htable K D) l c v m : ht_inv hf cmp t l c -> inuse_slots t < Z.of_nat m ->
  probe_within m t v = probe_within (length (ht_table t)) t v.
Proof.
  intros I Hm. unfold probe_within. rewrite (to_nat_size I). fold (start t v).
  pose proof (start_lt I v) as Hs.
  pose proof (probe_enough (ht_table t) (start t v) Hs m 0 (length (ht_table t))) as H.
  rewrite slot_0 in H by auto. apply H; try lia. unfold inuse_slots in Hm. unfold inuse. lia.
Qed.
End Inv.

(** a lookup that fails in a table with no EMPTY slot looks at every slot *)
Lemma lookup_all {K D} (tbl : list (hentry K D)) cmp k h s : (s < length tbl)%nat ->
  (forall e, In e tbl -> he_status e <> EMPTY) ->
  forall fuel d full, (full + d = length tbl)%nat -> (fuel + d < length tbl)%nat ->
  lookup_loop full tbl (length tbl) cmp k h (slot (length tbl) s d) s = Ok None ->
  lookup_loop fuel tbl (length tbl) cmp k h (slot (length tbl) s d) s = Fault NoTermination.
Proof.
  intros Hs W. induction fuel as [|f IH]; intros d full Hf Hd E; [reflexivity|].
  destruct full as [|full]; [lia|]. cbn [lookup_loop] in *.
  destruct (nth_error_lt_Some tbl (slot (length tbl) s d)) as [e He]; [apply slot_lt; lia|]. rewrite He in *.
  pose proof (W e (nth_error_In _ _ He)) as We.
  assert (Hadv : forall r, (let index' := (if Nat.eqb (S (slot (length tbl) s d)) (length tbl) then O else S (slot (length tbl) s d)) in
      (if Nat.eqb index' s then Ok None else lookup_loop full tbl (length tbl) cmp k h index' s) = Ok None ->
      (if Nat.eqb index' s then Ok None else lookup_loop f tbl (length tbl) cmp k h index' s) = r -> r = Fault NoTermination)).
  { intros r. cbn zeta. rewrite slot_step by lia. replace (Nat.eqb (slot (length tbl) s (S d)) s) with false
      by (symmetry; apply Nat.eqb_neq; apply slot_neq_start; lia).
    intros E1 <-. eapply IH; [| |exact E1]; lia. }
  destruct (he_status e); cbn [bind] in *; [congruence|eapply Hadv; [exact E|reflexivity]|].
  destruct (_ =? h); cbn [bind] in *; [|eapply Hadv; [exact E|reflexivity]].
  destruct (he_key e); cbn [bind] in *; [|discriminate]. destruct (_ =? 0); [discriminate|eapply Hadv; [exact E|reflexivity]].
Qed.
Lemma worn_lookup {K D hf cmp} (t : htable K D) l c k m : ht_inv hf cmp t l c -> worn t -> Z.of_nat m < ht_size t ->
  lookup t k = Ok None -> lookup_within m t k = Fault NoTermination.
Proof.
  intros I W Hm E. unfold lookup_within, lookup in *. rewrite (inv_hf _ _ _ _ _ I), (inv_cmp _ _ _ _ _ I) in *.
  destruct (ht_size t =? 0); [discriminate|]. rewrite (to_nat_size I) in *. fold (start t (hf k)) in *.
  pose proof (start_lt I (hf k)) as Hs. pose proof (inv_len _ _ _ _ _ I) as HL.
  pose proof (lookup_all (ht_table t) cmp k (hf k) (start t (hf k)) Hs W m 0 (length (ht_table t))) as H.
  rewrite slot_0 in H by auto. apply H; auto; lia.
Qed.

(** *** the states of the slots *)
Definition stat {K D} (t : htable K D) : list hstatus := map he_status (ht_table t).
Lemma map_upd_same {K D} (tbl : list (hentry K D)) i f : (forall e, he_status (f e) = he_status e) -> map he_status (upd tbl i f) = map he_status tbl.
Proof. intros H. revert i. induction tbl as [|e r IH]; intros [|i]; cbn; try reflexivity; [rewrite H|rewrite IH]; reflexivity. Qed.
Lemma map_upd_const {K D} (tbl : list (hentry K D)) i f x : (forall e, he_status (f e) = x) -> map he_status (upd tbl i f) = upd (map he_status tbl) i (fun _ => x).
Proof. intros H. revert i. induction tbl as [|e r IH]; intros [|i]; cbn; try reflexivity; [rewrite H|rewrite IH]; reflexivity. Qed.

Lemma insert_stat {K D} (t : htable K D) k d v t' i : insert t k d v = Ok (t', i) ->
  ht_size t' = ht_size t /\ exists free, probe_within (Z.to_nat (ht_size t)) t v = Ok (free, i) /\
    stat t' = if free : bool then upd (stat t) i (fun _ => INUSE) else stat t.
Proof.
  unfold insert, probe_within. destruct (ht_size t =? 0); [discriminate|]. intros E.
  destruct (insert_probe _ _ _ _ _) as [[free j]|] eqn:EP; cbn [bind] in E; [|discriminate].
  injection E as <- <-. cbn [ht_size]. split; [reflexivity|]. exists free. split; [reflexivity|].
  unfold stat. cbn [ht_table].
  destruct free; (destruct (ht_head t); rewrite ?(map_upd_same _ _ (set_prev _)), ?(map_upd_same _ _ (set_next _)) by reflexivity); try reflexivity.
  all: apply map_upd_const; reflexivity.
Qed.
Lemma probe_free {K D} fuel (tbl : list (hentry K D)) n s : forall i j, insert_probe fuel tbl n i s = Ok (true, j) ->
  exists e, nth_error tbl j = Some e /\ he_status e <> INUSE.
Proof.
  induction fuel as [|f IH]; intros i j E; cbn [insert_probe] in E; [discriminate|].
  destruct (nth_error tbl i) as [e|] eqn:He; [|discriminate]. destruct (he_status e) eqn:Hs.
  1,2: injection E as <-; exists e; split; [auto|congruence].
  destruct (Nat.eqb _ s); [discriminate|]. eapply IH, E.
Qed.
Lemma lookup_loop_hit {K D} fuel (tbl : list (hentry K D)) n cmp k h s : forall i j, lookup_loop fuel tbl n cmp k h i s = Ok (Some j) ->
  exists e, nth_error tbl j = Some e /\ he_status e = INUSE.
Proof.
  induction fuel as [|f IH]; intros i j E; cbn [lookup_loop] in E; [discriminate|].
  destruct (nth_error tbl i) as [e|] eqn:He; [|discriminate].
  destruct (he_status e) eqn:Hs; cbn [bind] in E; [discriminate| |].
  - destruct (Nat.eqb _ s); [discriminate|eapply IH, E].
  - destruct (_ =? h); cbn [bind] in E; [|destruct (Nat.eqb _ s); [discriminate|eapply IH, E]].
    destruct (he_key e); cbn [bind] in E; [|discriminate].
    destruct (_ =? 0); [injection E as <-; eauto|destruct (Nat.eqb _ s); [discriminate|eapply IH, E]].
Qed.
Lemma lookup_hit {K D} (t : htable K D) k j : lookup t k = Ok (Some j) -> exists e, nth_error (ht_table t) j = Some e /\ he_status e = INUSE.
Proof.
  unfold lookup. destruct (ht_hashfunc t); [|discriminate]. destruct (ht_keycmp t); [|discriminate].
  destruct (_ =? 0); [discriminate|]. apply lookup_loop_hit.
Qed.
Lemma remove_stat {K D} (t : htable K D) k t' b : removefrom_hashtable t k = Ok (t', b) ->
  ht_size t' = ht_size t /\
  if b then exists i, lookup t k = Ok (Some i) /\ nth_error (stat t) i = Some INUSE /\ stat t' = upd (stat t) i (fun _ => TOMBSTONE) else t' = t.
Proof.
  unfold removefrom_hashtable. destruct (lookup t k) as [[i|]|] eqn:EL; cbn [bind]; [| |discriminate].
  2:{ intros E. injection E as <- <-. auto. }
  destruct (lookup_hit _ _ _ EL) as (e & He & Hs). rewrite He. intros E. injection E as <- <-. cbn [ht_size]. split; [reflexivity|].
  exists i. split; [reflexivity|]. split; [unfold stat; rewrite nth_error_map, He; cbn; congruence|].
  unfold stat. cbn [ht_table].
  destruct (he_prev e), (he_next e); rewrite ?(map_upd_same _ _ (set_next _)), ?(map_upd_same _ _ (set_prev _)) by reflexivity; apply map_upd_const; reflexivity.
Qed.

(** *** numbers of used slots *)
Definition nb (x : hstatus) : bool := match x with EMPTY => false | _ => true end.
Definition ib (x : hstatus) : bool := match x with INUSE => true | _ => false end.
Lemma filter_map_len {A B} (g : A -> B) p l : length (filter (fun a => p (g a)) l) = length (filter p (map g l)).
Proof. induction l as [|a r IH]; cbn; [reflexivity|]. destruct (p (g a)); cbn; congruence. Qed.
Lemma used_stat {K D} (t : htable K D) : used_slots t = Z.of_nat (length (filter nb (stat t))).
Proof. unfold used_slots, stat. rewrite <- filter_map_len. reflexivity. Qed.
Lemma inuse_stat {K D} (t : htable K D) : inuse_slots t = Z.of_nat (length (filter ib (stat t))).
Proof. unfold inuse_slots, stat. rewrite <- filter_map_len. reflexivity. Qed.
Lemma inuse_le_used {K D} (t : htable K D) : inuse_slots t <= used_slots t.
Proof.
  rewrite used_stat, inuse_stat. induction (stat t) as [|x r IH]; cbn; [lia|]. destruct x; cbn [nb ib length]; lia.
Qed.
Lemma used_upd l i x : nb x = true -> (length (filter nb (upd l i (fun _ => x))) <= S (length (filter nb l)))%nat.
Proof. intros Hx. revert i. induction l as [|y r IH]; intros [|i]; cbn; [lia|lia| |]; [rewrite Hx|specialize (IH i)]; destruct (nb y); cbn [length]; lia. Qed.
Lemma used_upd_same l i x y : nb x = true -> nth_error l i = Some y -> nb y = true -> length (filter nb (upd l i (fun _ => x))) = length (filter nb l).
Proof.
  intros Hx. revert i. induction l as [|z r IH]; intros [|i] H Hy; cbn in *; try discriminate.
  - injection H as ->. rewrite Hx, Hy. reflexivity.
  - specialize (IH i H Hy). destruct (nb z); cbn [length]; congruence.
Qed.

(** no slot waits to be used again *)
Definition clean {K D} (t : htable K D) : Prop := ~ In TOMBSTONE (stat t).
Lemma clean_used {K D} (t : htable K D) : clean t -> used_slots t = inuse_slots t.
Proof.
  unfold clean. rewrite used_stat, inuse_stat. induction (stat t) as [|x r IH]; intros H; [reflexivity|]. cbn [filter].
  assert (~ In TOMBSTONE r) as Hr by (intros Hi; apply H; right; auto). specialize (IH Hr).
  destruct x; cbn [nb ib length]; try lia. exfalso. apply H. left. reflexivity.
Qed.
Lemma in_upd {A} (l : list A) i x y : In y (upd l i (fun _ => x)) -> y = x \/ In y l.
Proof. revert i. induction l as [|z r IH]; intros [|i]; cbn; [tauto|tauto| |]; intros [H|H]; auto. destruct (IH i H); auto. Qed.
Lemma insert_clean {K D} (t : htable K D) k d v t' i : insert t k d v = Ok (t', i) -> clean t -> clean t'.
Proof.
  intros E C H. apply insert_stat in E as (_ & free & _ & Es). rewrite Es in H. destruct free; [|auto].
  apply in_upd in H as [H|H]; [discriminate|auto].
Qed.
Lemma grow_loop_clean {K D} (es : list (hentry K D)) : forall nt nt', grow_loop es nt = Ok nt' -> clean nt -> clean nt' /\ ht_size nt' = ht_size nt.
Proof.
  induction es as [|e r IH]; intros nt nt' E C; cbn [grow_loop] in E; [injection E as <-; auto|].
  destruct (he_status e); [eauto|eauto|]. destruct (he_key e); [|discriminate]. destruct (he_data e); [|discriminate].
  destruct (insert _ _ _ _) as [[t1 i]|] eqn:E1; cbn [bind] in E; [|discriminate].
  destruct (IH _ _ E (insert_clean _ _ _ _ _ _ E1 C)) as [C' S']. split; [auto|]. apply insert_stat in E1 as [S1 _]. congruence.
Qed.
Lemma fresh_clean {K D} n hf cmp : clean (K := K) (D := D) (mkHT n 0 hf cmp (repeat empty_entry (Z.to_nat n)) None).
Proof. intros H. unfold stat in H. cbn in H. apply in_map_iff in H as (e & E & H). apply repeat_spec in H. subst e. discriminate. Qed.
Lemma grow_clean {K D} (t : htable K D) ns t' : grow_hashtable t ns = Ok t' -> clean t' /\ ht_size t' = ns.
Proof. intros E. apply grow_loop_clean in E; [exact E|apply fresh_clean]. Qed.
Lemma create_clean {K D} ps n hf cmp (t : htable K D) : create_hashtable ps n hf cmp = Ok t -> clean t.
Proof. unfold create_hashtable. destruct (_ =? 0); [discriminate|]. intros E. injection E as <-. apply fresh_clean. Qed.
Lemma addto_cases {K D} (t : htable K D) k d t' : addto_hashtable t k d = Ok t' ->
  (exists v i, (forall hf, ht_hashfunc t = Some hf -> v = hf k) /\ insert t k d v = Ok (t', i)) \/ (clean t' /\ ht_size t' <> ht_size t).
Proof.
  unfold addto_hashtable. intros E. destruct (grow_size _ _ _) as [ns|]; cbn [bind] in E; [|discriminate].
  destruct (Z.eqb_spec ns (ht_size t)) as [_|Hn]; cbn [bind] in E.
  - destruct (ht_hashfunc t) as [hf|]; [|discriminate]. destruct (insert _ _ _ _) as [[t1 i]|] eqn:E1; cbn [bind] in E; [|discriminate].
    injection E as <-. left. exists (hf k), i. split; [|auto]. intros hf' H. congruence.
  - destruct (grow_hashtable t ns) as [t1|] eqn:E1; cbn [bind] in E; [|discriminate]. apply grow_clean in E1 as [C1 S1].
    destruct (ht_hashfunc t1); [|discriminate]. destruct (insert _ _ _ _) as [[t2 i]|] eqn:E2; cbn [bind] in E; [|discriminate].
    injection E as <-. right. split; [eapply insert_clean; eauto|]. apply insert_stat in E2 as [S2 _]. congruence.
Qed.
Lemma addto_clean {K D} (t : htable K D) k d t' : addto_hashtable t k d = Ok t' -> clean t -> clean t'.
Proof. intros E C. apply addto_cases in E as [(v & i & _ & E)|[H _]]; [eapply insert_clean; eauto|auto]. Qed.

Lemma hstep_size {K D} (t : htable K D) o t' x hf cmp l c : ht_inv hf cmp t l c -> hstep t o = Ok (t', x) -> ht_size t <= ht_size t'.
Proof.
  intros I. destruct o as [k d|k|k]; cbn [hstep].
  - destruct (addto_spec t l c k d I) as (t2 & l2 & c2 & H2 & _ & _ & A & B). rewrite H2. cbn [bind]. intros E. injection E as <- <-.
    pose proof (inv_pos _ _ _ _ _ I). destruct (Z_le_gt_dec (ht_count t) (ht_size t / 2)); [destruct A; lia|rewrite B; lia].
  - destruct (removefrom_hashtable t k) as [[t2 b]|] eqn:E2; cbn [bind]; [|discriminate]. intros E. injection E as <- <-.
    apply remove_stat in E2. lia.
  - destruct (lookup_hashtable t k); cbn [bind]; [|discriminate]. intros E. injection E as <- <-. lia.
Qed.
Lemma hstep_used {K D} (t : htable K D) o t' x hf cmp l c : ht_inv hf cmp t l c -> hstep t o = Ok (t', x) ->
  used_slots t' <= used_slots t + match o with HAdd _ _ => 1 | _ => 0 end.
Proof.
  intros I. destruct o as [k d|k|k]; cbn [hstep].
  - destruct (addto_hashtable t k d) as [t2|] eqn:E2; cbn [bind]; [|discriminate]. intros E. injection E as <- <-.
    destruct (addto_cases _ _ _ _ E2) as [(v & i & _ & E1)|[C _]].
    + apply insert_stat in E1 as (_ & free & _ & Es). rewrite !used_stat, Es. destruct free; [|lia].
      pose proof (used_upd (stat t) i INUSE eq_refl). lia.
    + rewrite (clean_used _ C). destruct (addto_spec t l c k d I) as (t3 & l3 & c3 & H3 & I3 & P3 & _).
      assert (t3 = t2) by congruence. subst t3. rewrite (inuse_count I3), (inv_count_c I3). cbn [length].
      rewrite <- (Permutation_length P3). pose proof (inuse_le_used t) as U. rewrite (inuse_count I), (inv_count_c I) in U. lia.
  - destruct (removefrom_hashtable t k) as [[t2 b]|] eqn:E2; cbn [bind]; [|discriminate]. intros E. injection E as <- <-.
    apply remove_stat in E2 as [_ E2]. destruct b; [|subst; lia]. destruct E2 as (i & _ & Hi & Es). rewrite !used_stat, Es.
    rewrite (used_upd_same _ _ _ INUSE); auto. lia.
  - destruct (lookup_hashtable t k); cbn [bind]; [|discriminate]. intros E. injection E as <- <-. lia.
Qed.
Lemma hstep_clean {K D} (t : htable K D) o t' x : hstep t o = Ok (t', x) -> (forall k, o <> HRemove k) -> clean t -> clean t'.
Proof.
  destruct o as [k d|k|k]; cbn [hstep].
  - destruct (addto_hashtable t k d) as [t2|] eqn:E2; cbn [bind]; [|discriminate]. intros E _. injection E as <- <-. eapply addto_clean; eauto.
  - intros _ H. exfalso. apply (H k). reflexivity.
  - destruct (lookup_hashtable t k); cbn [bind]; [|discriminate]. intros E. injection E as <- <-. auto.
Qed.
Lemma worn_stat {K D} (t : htable K D) : worn t <-> ~ In EMPTY (stat t).
Proof.
  unfold worn, stat. split.
  - intros W H. apply in_map_iff in H as (e & E & H). exact (W e H E).
  - intros H e He E. apply H. rewrite <- E. apply in_map. exact He.
Qed.
Lemma hstep_worn {K D} (t : htable K D) o t' x hf cmp l c : ht_inv hf cmp t l c -> hstep t o = Ok (t', x) -> ht_size t' = ht_size t -> worn t -> worn t'.
Proof.
  intros I. rewrite !worn_stat. destruct o as [k d|k|k]; cbn [hstep].
  - destruct (addto_hashtable t k d) as [t2|] eqn:E2; cbn [bind]; [|discriminate]. intros E S W H. injection E as <- <-.
    destruct (addto_cases _ _ _ _ E2) as [(v & i & _ & E1)|[_ C]]; [|contradiction].
    apply insert_stat in E1 as (_ & free & _ & Es). rewrite Es in H. destruct free; [|auto]. apply in_upd in H as [H|H]; [discriminate|auto].
  - destruct (removefrom_hashtable t k) as [[t2 b]|] eqn:E2; cbn [bind]; [|discriminate]. intros E _ W. injection E as <- <-.
    apply remove_stat in E2 as [_ E2]. destruct b; [|subst; auto]. destruct E2 as (i & _ & _ & ->). intros H. apply in_upd in H as [H|H]; [discriminate|auto].
  - destruct (lookup_hashtable t k); cbn [bind]; [|discriminate]. intros E. injection E as <- <-. auto.
Qed.
Lemma hstep_grow {K D} (t : htable K D) o t' x hf cmp l c : ht_inv hf cmp t l c -> hstep t o = Ok (t', x) ->
  ht_size t' = ht_size t \/ ht_size t' <= 4 * inuse_slots t - 2.
Proof.
  intros I. destruct o as [k d|k|k]; cbn [hstep].
  - destruct (addto_spec t l c k d I) as (t2 & l2 & c2 & H2 & _ & _ & A & B). rewrite H2. cbn [bind]. intros E. injection E as <- <-.
    rewrite (inuse_count I). destruct (Z_le_gt_dec (ht_count t) (ht_size t / 2)) as [H|H]; [left; apply A; auto|right].
    rewrite B by lia. pose proof (Z.div_mod (ht_size t) 2 ltac:(lia)). pose proof (Z.mod_pos_bound (ht_size t) 2 ltac:(lia)). lia.
  - destruct (removefrom_hashtable t k) as [[t2 b]|] eqn:E2; cbn [bind]; [|discriminate]. intros E. injection E as <- <-.
    apply remove_stat in E2. lia.
  - destruct (lookup_hashtable t k); cbn [bind]; [|discriminate]. intros E. injection E as <- <-. auto.
Qed.

(** *** histories *)
Section Runs.
Context {K D : Type} (P : K -> Prop) (hf : K -> Z) (cmp : K -> K -> Z) (CO : cmp_ok P hf cmp).

Lemma hrun_facts (ops : list (hop K D)) : forall t l c t' xs, ht_inv hf cmp t l c -> keys_in P c -> Forall (fun o => P (op_key o)) ops ->
  hrun t ops = Ok (t', xs) ->
  (exists l' c', ht_inv hf cmp t' l' c') /\
  used_slots t' <= used_slots t + count_adds ops /\
  (no_removals ops -> clean t -> clean t') /\
  ht_size t <= ht_size t' /\
  (ht_size t' = ht_size t -> worn t -> worn t') /\
  (forall B, (forall pre suf t1 ys, ops = pre ++ suf -> hrun t pre = Ok (t1, ys) -> inuse_slots t1 <= B) ->
     ht_size t' <= Z.max (ht_size t) (4 * B - 2)).
Proof.
  induction ops as [|o ops IH]; intros t l c t' xs I HK HP E; cbn [hrun] in E.
  - injection E as <- <-. split; [eauto|]. split; [cbn; lia|]. split; [auto|]. split; [lia|]. split; [auto|]. intros. lia.
  - inversion HP as [|? ? HPo HPr]; subst.
    destruct (hstep_bag P hf cmp CO t l c o I HK HPo) as (t1 & x & l1 & c1 & H1 & I1 & K1 & _). rewrite H1 in E. cbn [bind] in E.
    destruct (hrun t1 ops) as [[t2 ys]|] eqn:E2; cbn [bind] in E; [|discriminate]. injection E as <- <-.
    destruct (IH t1 l1 c1 t2 ys I1 K1 HPr E2) as (Hi & Hu & Hc & Hs & Hw & HB).
    pose proof (hstep_used _ _ _ _ _ _ _ _ I H1) as U1. pose proof (hstep_size _ _ _ _ _ _ _ _ I H1) as S1.
    split; [auto|]. split; [destruct o; cbn [count_adds]; lia|]. split; [|split; [lia|split]].
    + intros NR C. apply Hc; [intros k Hk; apply (NR k); right; auto|]. eapply hstep_clean; [exact H1| |auto].
      intros k ->. apply (NR k). left. reflexivity.
    + intros Es W. apply Hw; [lia|]. eapply hstep_worn; [exact I|exact H1|lia|auto].
    + intros B HBB.
      assert (ht_size t2 <= Z.max (ht_size t1) (4 * B - 2)) as H2.
      { apply HB. intros pre suf t3 zs Ep Er. apply (HBB (o :: pre) suf t3 (x :: zs)); [cbn; congruence|]. cbn [hrun]. rewrite H1. cbn [bind]. rewrite Er. reflexivity. }
      pose proof (HBB [] (o :: ops) t [] eq_refl eq_refl) as H0.
      destruct (hstep_grow _ _ _ _ _ _ _ _ I H1); lia.
Qed.
End Runs.
Lemma filter_le {A} (p : A -> bool) l : (length (filter p l) <= length l)%nat.
Proof. induction l as [|a r IH]; cbn; [lia|]. destruct (p a); cbn; lia. Qed.
Lemma used_le_size {K D hf cmp} (t : htable K D) l c : ht_inv hf cmp t l c -> used_slots t <= ht_size t.
Proof. intros I. rewrite <- (inv_len _ _ _ _ _ I). unfold used_slots. match goal with |- context[filter ?p _] => pose proof (filter_le p (ht_table t)) end. lia. Qed.

(** *** a table worn out by additions and removals *)
Definition idz (k : Z) : Z := k.
Definition cmpz (a b : Z) : Z := if a =? b then 0 else 1.
Lemma cmpz_ok : cmp_ok (fun _ => True) idz cmpz.
Proof. intros a b _ _ _. unfold cmpz. destruct (Z.eqb_spec a b); split; congruence. Qed.

Lemma churn_one (t : htable Z Z) j : ht_inv idz cmpz t [] [] -> Z.of_nat j < ht_size t <= two64 -> nth_error (stat t) j = Some EMPTY ->
  (forall x, In x (stat t) -> x <> INUSE) ->
  exists t', hrun t [HAdd (Z.of_nat j) 0; HRemove (Z.of_nat j)] = Ok (t', [RAdded; RRemoved true]) /\ ht_inv idz cmpz t' [] [] /\
    ht_size t' = ht_size t /\ stat t' = upd (stat t) j (fun _ => TOMBSTONE).
Proof.
  intros I Hj Hn Hx. cbn [hrun hstep].
  destruct (addto_spec t [] [] (Z.of_nat j) 0 I) as (t1 & l1 & c1 & H1 & I1 & P1 & A1 & _).
  pose proof (inv_count _ _ _ _ _ I) as C0. cbn [length] in C0. pose proof (inv_pos _ _ _ _ _ I) as Hp.
  assert (0 <= ht_size t / 2) by (apply Z.div_pos; lia).
  destruct A1 as [-> S1]; [lia|]. rewrite H1. cbn [bind].
  assert (St1 : stat t1 = upd (stat t) j (fun _ => INUSE)).
  { destruct (addto_cases _ _ _ _ H1) as [(v & i & Hv & E1)|[_ C]]; [|contradiction].
    rewrite (Hv _ (inv_hf _ _ _ _ _ I)) in E1. apply insert_stat in E1 as (_ & free & Ep & Es). revert Ep.
    unfold probe_within. replace (Z.to_nat (u64 (idz (Z.of_nat j)) mod ht_size t)) with j.
    2:{ unfold idz, u64. rewrite (Z.mod_small (Z.of_nat j) two64) by lia. rewrite Z.mod_small by lia. lia. }
    destruct (Z.to_nat (ht_size t)) eqn:EN; [lia|]. cbn [insert_probe].
    unfold stat in Hn. rewrite nth_error_map in Hn. destruct (nth_error (ht_table t) j) as [e|]; [|discriminate]. cbn in Hn. injection Hn as ->.
    intros E. injection E as <- <-. exact Es. }
  destruct (remove_spec t1 l1 [(Z.of_nat j, 0)] (Z.of_nat j) I1) as [(t2 & l2 & i & l3 & c2 & k' & d & c3 & e & H2 & El & Ec & Hl & Hm & I2 & S2 & _)|[_ H2]].
  2:{ exfalso. apply (H2 (Z.of_nat j) 0); [left; reflexivity|]. split; [reflexivity|]. unfold cmpz. rewrite Z.eqb_refl. reflexivity. }
  rewrite H2. cbn [bind]. exists t2. split; [reflexivity|].
  assert (c2 = [] /\ c3 = []) as [-> ->].
  { destruct c2 as [|? [|? ?]]; cbn in Ec; [injection Ec as <-; auto|discriminate|discriminate]. }
  assert (l2 = []) as -> by (destruct l2; [auto|discriminate]).
  assert (l3 = []) as ->.
  { pose proof (Forall2_length _ _ _ (inv_cont _ _ _ _ _ I1)) as HL. rewrite El in HL. cbn in HL. destruct l3; [auto|discriminate]. }
  cbn in I2. split; [auto|]. split; [congruence|].
  apply remove_stat in H2 as (_ & i' & _ & Hi' & ->). rewrite St1 in *.
  assert (i' = j).
  { rewrite nth_error_upd in Hi'. destruct (Nat.eqb_spec j i'); [auto|]. exfalso. eapply Hx; [eapply nth_error_In, Hi'|reflexivity]. }
  subst i'. clear. revert j. induction (stat t) as [|x r IH]; intros [|j]; cbn; try reflexivity. rewrite IH. reflexivity.
Qed.
Lemma hrun_app {K D} (a b : list (hop K D)) : forall t, hrun t (a ++ b) = do ' (t1, xs) <- hrun t a; do ' (t2, ys) <- hrun t1 b; Ok (t2, xs ++ ys).
Proof.
  induction a as [|o a IH]; intros t; cbn [app hrun].
  - cbn [bind]. destruct (hrun t b) as [[t2 ys]|]; reflexivity.
  - destruct (hstep t o) as [[t1 x]|]; cbn [bind]; [|reflexivity]. rewrite IH. destruct (hrun t1 a) as [[t2 xs]|]; cbn [bind]; [|reflexivity].
    destruct (hrun t2 b) as [[t3 ys]|]; reflexivity.
Qed.
Lemma upd_mid {A} (a : list A) x y b : upd (a ++ x :: b) (length a) (fun _ => y) = a ++ y :: b.
Proof. induction a as [|z r IH]; cbn; [reflexivity|]. rewrite IH. reflexivity. Qed.
Lemma churn_spec (t0 : htable Z Z) m : ht_inv idz cmpz t0 [] [] -> ht_size t0 <= two64 -> stat t0 = repeat EMPTY (Z.to_nat (ht_size t0)) ->
  (m <= Z.to_nat (ht_size t0))%nat ->
  exists t xs, hrun t0 (churn m) = Ok (t, xs) /\ ht_inv idz cmpz t [] [] /\ ht_size t = ht_size t0 /\
    stat t = repeat TOMBSTONE m ++ repeat EMPTY (Z.to_nat (ht_size t0) - m).
Proof.
  intros I0 Hs St. induction m as [|m IH]; intros Hm.
  - exists t0, []. split; [reflexivity|]. split; [auto|]. split; [reflexivity|]. rewrite Nat.sub_0_r. exact St.
  - destruct IH as (t & xs & H1 & I1 & S1 & St1); [lia|].
    destruct (Z.to_nat (ht_size t0) - m)%nat as [|q] eqn:Eq; [lia|]. cbn [repeat] in St1.
    destruct (churn_one t m I1) as (t' & H2 & I2 & S2 & St2).
    + lia.
    + rewrite St1, nth_error_app2; rewrite repeat_length; [|lia]. rewrite Nat.sub_diag. reflexivity.
    + intros x Hx ->. rewrite St1 in Hx. apply in_app_or in Hx as [Hx|[Hx|Hx]]; [apply repeat_spec in Hx|idtac|apply repeat_spec in Hx]; discriminate.
    + exists t', (xs ++ [RAdded; RRemoved true]). unfold churn. rewrite seq_S, flat_map_app, hrun_app. fold (churn m). rewrite H1. cbn [bind].
      cbn [flat_map app plus]. rewrite H2. cbn [bind]. split; [reflexivity|]. split; [auto|]. split; [congruence|].
      rewrite St2, St1. rewrite <- (repeat_length TOMBSTONE m) at 2. rewrite upd_mid.
      replace (Z.to_nat (ht_size t0) - S m)%nat with q by lia. replace (S m) with (m + 1)%nat by lia. rewrite repeat_app, <- app_assoc. reflexivity.
Qed.
Lemma create_stat {K D} ps n (hf : K -> Z) cmp (t : htable K D) : create_hashtable ps n hf cmp = Ok t -> stat t = repeat EMPTY (Z.to_nat (ht_size t)).
Proof.
  unfold create_hashtable. destruct (_ =? 0); [discriminate|]. intros E. injection E as <-. unfold stat. cbn [ht_table ht_size].
  induction (Z.to_nat _); cbn; congruence.
Qed.
