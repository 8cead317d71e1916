(** Invariant and refinement proofs for HashModel.v. *)
From Verif Require Import Base ListFacts HashModel.
From Coq Require Import Permutation.

(** *** Cyclic slot arithmetic *)
Definition slot (n s d : nat) : nat := if Nat.ltb (s + d) n then (s + d)%nat else (s + d - n)%nat.

Lemma slot_lt n s d : (s < n)%nat -> (d < n)%nat -> (slot n s d < n)%nat.
Proof. unfold slot. destruct (Nat.ltb_spec (s + d) n); lia. Qed.

Lemma slot_0 n s : (s < n)%nat -> slot n s 0 = s.
Proof. unfold slot. destruct (Nat.ltb_spec (s + 0) n); lia. Qed.

Lemma slot_step n s d : (s < n)%nat -> (S d < n)%nat ->
  (if Nat.eqb (S (slot n s d)) n then O else S (slot n s d)) = slot n s (S d).
Proof.
  unfold slot. destruct (Nat.ltb_spec (s + d) n); destruct (Nat.ltb_spec (s + S d) n);
  destruct (Nat.eqb_spec (S (s + d)) n); try destruct (Nat.eqb_spec (S (s + d - n)) n); lia.
Qed.

Lemma slot_step_last n s d : (s < n)%nat -> S d = n ->
  (if Nat.eqb (S (slot n s d)) n then O else S (slot n s d)) = s.
Proof.
  unfold slot. destruct (Nat.ltb_spec (s + d) n);
  try destruct (Nat.eqb_spec (S (s + d)) n); try destruct (Nat.eqb_spec (S (s + d - n)) n); lia.
Qed.

Lemma slot_neq_start n s d : (s < n)%nat -> (0 < d < n)%nat -> slot n s d <> s.
Proof. unfold slot. destruct (Nat.ltb_spec (s + d) n); lia. Qed.

Lemma slot_inj n s d d' : (s < n)%nat -> (d < n)%nat -> (d' < n)%nat -> slot n s d = slot n s d' -> d = d'.
Proof. unfold slot. destruct (Nat.ltb_spec (s + d) n); destruct (Nat.ltb_spec (s + d') n); lia. Qed.

Lemma slot_surj n s i : (s < n)%nat -> (i < n)%nat -> exists d, (d < n)%nat /\ i = slot n s d.
Proof.
  intros Hs Hi. destruct (le_lt_dec s i).
  - exists (i - s)%nat. unfold slot. destruct (Nat.ltb_spec (s + (i - s)) n); lia.
  - exists (i + n - s)%nat. unfold slot. destruct (Nat.ltb_spec (s + (i + n - s)) n); lia.
Qed.

(** *** Doubly linked list *)
Fixpoint linked {K D} (tbl : list (hentry K D)) (prev : option nat) (l : list nat) : Prop :=
  match l with
  | [] => True
  | i :: r => exists e, nth_error tbl i = Some e /\ he_prev e = prev /\
                        he_next e = hd_error r /\ linked tbl (Some i) r
  end.

Lemma linked_ext {K D} (tbl tbl' : list (hentry K D)) prev l :
  (forall i e, In i l -> nth_error tbl i = Some e ->
     exists e', nth_error tbl' i = Some e' /\ he_prev e' = he_prev e /\ he_next e' = he_next e) ->
  linked tbl prev l -> linked tbl' prev l.
Proof.
  revert prev. induction l as [|i l IH]; intros prev Hext; [auto|].
  cbn. intros (e & Hi & Hp & Hn & Hl).
  destruct (Hext i e (or_introl eq_refl) Hi) as (e' & Hi' & Hp' & Hn').
  exists e'. repeat split; try congruence.
  apply IH; [|exact Hl]. intros j ej Hj. apply Hext. right; exact Hj.
Qed.

Lemma linked_app {K D} (tbl : list (hentry K D)) prev l1 i l2 :
  linked tbl prev (l1 ++ i :: l2) ->
  exists e, nth_error tbl i = Some e /\ he_next e = hd_error l2 /\
            he_prev e = (match rev l1 with [] => prev | p :: _ => Some p end) /\
            linked tbl (Some i) l2.
Proof.
  revert prev. induction l1 as [|a l1 IH]; intros prev; cbn [app linked].
  - intros (e & H1 & H2 & H3 & H4). exists e. cbn. auto.
  - intros (e & H1 & H2 & H3 & H4). apply IH in H4 as (e' & Q1 & Q2 & Q3 & Q4).
    exists e'. repeat split; auto. rewrite Q3. cbn [rev].
    destruct (rev l1); reflexivity.
Qed.

Definition start {K D} (t : htable K D) (h : Z) : nat := Z.to_nat (u64 h mod ht_size t).

(** probing from the home slot of [h] reaches slot [i] before any EMPTY slot *)
Definition reach {K D} (tbl : list (hentry K D)) (s i : nat) : Prop :=
  exists d, (d < length tbl)%nat /\ i = slot (length tbl) s d /\
    forall d', (d' < d)%nat -> exists e, nth_error tbl (slot (length tbl) s d') = Some e /\ he_status e <> EMPTY.

Definition holds {K D} (tbl : list (hentry K D)) (i : nat) (kd : K * D) : Prop :=
  exists e, nth_error tbl i = Some e /\ he_status e = INUSE /\
            he_key e = Some (fst kd) /\ he_data e = Some (snd kd).

(** The representation invariant: [l] is the list of in-use slots in link order,
    [c] the key/data pairs stored there. *)
Record ht_inv {K D} (hf : K -> Z) (cmp : K -> K -> Z) (t : htable K D) (l : list nat) (c : list (K * D)) : Prop := {
  inv_len : Z.of_nat (length (ht_table t)) = ht_size t;
  inv_pos : 0 < ht_size t;
  inv_hf : ht_hashfunc t = Some hf;
  inv_cmp : ht_keycmp t = Some cmp;
  inv_head : ht_head t = hd_error l;
  inv_links : linked (ht_table t) None l;
  inv_nodup : NoDup l;
  inv_inuse : forall i e, nth_error (ht_table t) i = Some e -> he_status e = INUSE -> In i l;
  inv_cont : Forall2 (holds (ht_table t)) l c;
  inv_count : ht_count t = Z.of_nat (length l);
  inv_load : ht_count t <= ht_size t / 2 + 1;
  inv_entry : forall i e k, nth_error (ht_table t) i = Some e -> he_status e = INUSE ->
                he_key e = Some k -> he_hash e = hf k /\ reach (ht_table t) (start t (hf k)) i }.

Lemma inv_in_l {K D hf cmp} {t : htable K D} {l c} : ht_inv hf cmp t l c ->
  forall i, In i l -> exists kd, In kd c /\ holds (ht_table t) i kd.
Proof. intros I i Hi. exact (Forall2_In_l _ _ _ _ (inv_cont _ _ _ _ _ I) Hi). Qed.

Lemma start_lt {K D hf cmp} {t : htable K D} {l c} : ht_inv hf cmp t l c ->
  forall h, (start t h < length (ht_table t))%nat.
Proof.
  intros I h. unfold start. pose proof (inv_len _ _ _ _ _ I) as E. pose proof (inv_pos _ _ _ _ _ I) as P.
  pose proof (Z.mod_pos_bound (u64 h) (ht_size t) P). lia.
Qed.

Lemma to_nat_size {K D hf cmp} {t : htable K D} {l c} : ht_inv hf cmp t l c ->
  Z.to_nat (ht_size t) = length (ht_table t).
Proof. intros I. pose proof (inv_len _ _ _ _ _ I). lia. Qed.

Lemma all_inuse_count {K D} {hf cmp} {t : htable K D} {l c} : ht_inv hf cmp t l c ->
  (forall i e, nth_error (ht_table t) i = Some e -> he_status e = INUSE) ->
  (length (ht_table t) <= length l)%nat.
Proof.
  intros I Hall.
  rewrite <- (seq_length (length (ht_table t)) 0).
  apply NoDup_incl_length; [apply seq_NoDup|].
  intros i Hi. apply in_seq in Hi.
  destruct (nth_error_lt_Some (ht_table t) i) as [e He]; [lia|].
  eapply inv_inuse; eauto.
Qed.

(** *** insert *)
Lemma insert_probe_spec {K D} (tbl : list (hentry K D)) s :
  (s < length tbl)%nat ->
  forall fuel d, (fuel + d = length tbl)%nat -> (d < length tbl)%nat ->
  (forall d', (d' < d)%nat -> exists e, nth_error tbl (slot (length tbl) s d') = Some e /\ he_status e = INUSE) ->
  (exists d0 e, (d0 < length tbl)%nat /\
     insert_probe fuel tbl (length tbl) (slot (length tbl) s d) s = Ok (true, slot (length tbl) s d0) /\
     nth_error tbl (slot (length tbl) s d0) = Some e /\ he_status e <> INUSE /\
     forall d', (d' < d0)%nat -> exists e, nth_error tbl (slot (length tbl) s d') = Some e /\ he_status e = INUSE)
  \/ (forall i e, nth_error tbl i = Some e -> he_status e = INUSE).
Proof.
  intros Hs. induction fuel as [|f IH]; intros d Hf Hd Hprev; [lia|].
  cbn [insert_probe].
  destruct (nth_error_lt_Some tbl (slot (length tbl) s d)) as [e He]; [apply slot_lt; auto|].
  rewrite He.
  destruct (he_status e) eqn:Est.
  - left. exists d, e. repeat split; auto. congruence.
  - left. exists d, e. repeat split; auto. congruence.
  - assert (Hprev' : forall d', (d' < S d)%nat -> exists e, nth_error tbl (slot (length tbl) s d') = Some e /\ he_status e = INUSE).
    { intros d' Hd'. destruct (Nat.eq_dec d' d) as [->|]; [eauto|]. apply Hprev; lia. }
    destruct (Nat.eq_dec (S d) (length tbl)) as [Hlast|Hlast].
    + right. intros i e' Hi.
      pose proof (nth_error_Some_lt _ _ _ Hi) as Hlt.
      destruct (slot_surj _ s i Hs Hlt) as (di & Hdi & ->).
      destruct (Hprev' di) as (e'' & H1 & H2); [lia|]. congruence.
    + rewrite slot_step by lia.
      replace (Nat.eqb (slot (length tbl) s (S d)) s) with false
        by (symmetry; apply Nat.eqb_neq; apply slot_neq_start; lia).
      apply IH; auto; lia.
Qed.

Lemma insert_spec {K D} {hf cmp} (t : htable K D) l c k d :
  ht_inv hf cmp t l c -> ht_count t <= ht_size t / 2 ->
  exists t' i, insert t k d (hf k) = Ok (t', i) /\
    ht_inv hf cmp t' (i :: l) ((k, d) :: c) /\ ht_size t' = ht_size t.
Proof.
  intros I Hload. unfold insert.
  pose proof (inv_pos _ _ _ _ _ I) as Hpos. pose proof (inv_len _ _ _ _ _ I) as Hlen.
  destruct (Z.eqb_spec (ht_size t) 0) as [|_]; [lia|].
  rewrite (to_nat_size I). fold (start t (hf k)).
  set (s := start t (hf k)). assert (Hs : (s < length (ht_table t))%nat) by apply (start_lt I).
  assert (Hn0 : (0 < length (ht_table t))%nat) by lia.
  destruct (insert_probe_spec (ht_table t) s Hs (length (ht_table t)) 0) as [H|H]; try lia.
  2:{ exfalso. apply (all_inuse_count I) in H. pose proof (inv_count _ _ _ _ _ I).
      assert (ht_size t / 2 < ht_size t) by (apply Z.div_lt; lia). lia. }
  destruct H as (d0 & e0 & Hd0 & Hprobe & He0 & Hst0 & Hbefore).
  rewrite slot_0 in Hprobe by lia. rewrite Hprobe. cbn [bind].
  set (i := slot (length (ht_table t)) s d0) in *.
  assert (Hil : ~ In i l).
  { intros Hin. destruct (inv_in_l I _ Hin) as ([k' d'] & _ & e' & H1 & H2 & _). congruence. }
  set (tbl1 := upd (ht_table t) i _). set (tbl2 := upd tbl1 i _). set (tbl3 := upd tbl2 i _).
  set (tbl4 := match ht_head t with Some h => _ | None => _ end).
  assert (Hnth : forall j, nth_error tbl4 j =
    if Nat.eqb i j then Some (mkHE (Some k) (Some d) (hf k) (ht_head t) None INUSE)
    else match nth_error (ht_table t) j with
         | Some e => Some (if match ht_head t with Some h => Nat.eqb h j | None => false end
                           then set_prev (Some i) e else e)
         | None => None end).
  { intros j. subst tbl4.
    assert (H3 : nth_error tbl3 j = if Nat.eqb i j then Some (mkHE (Some k) (Some d) (hf k) (ht_head t) None INUSE)
                                    else nth_error (ht_table t) j).
    { subst tbl3 tbl2 tbl1. rewrite !nth_error_upd.
      destruct (Nat.eqb_spec i j) as [<-|Hne]; [|reflexivity].
      rewrite He0. reflexivity. }
    destruct (ht_head t) as [h|] eqn:Hh.
    - rewrite nth_error_upd, H3.
      destruct (Nat.eqb_spec h j) as [->|Hhj].
      + rewrite (inv_head _ _ _ _ _ I) in Hh. assert (In j l) by (destruct l; cbn in Hh; inversion Hh; subst; left; auto).
        destruct (Nat.eqb_spec i j) as [->|Hne]; [contradiction|]. cbn.
        destruct (nth_error (ht_table t) j); reflexivity.
      + destruct (Nat.eqb_spec i j) as [->|Hne]; [reflexivity|].
        destruct (nth_error (ht_table t) j); reflexivity.
    - rewrite H3. destruct (Nat.eqb_spec i j); [reflexivity|].
      destruct (nth_error (ht_table t) j); reflexivity. }
  assert (Hlen4 : length tbl4 = length (ht_table t)).
  { subst tbl4 tbl3 tbl2 tbl1. destruct (ht_head t); rewrite ?upd_length; reflexivity. }
  assert (Hold : forall j e, nth_error (ht_table t) j = Some e -> j <> i ->
     exists e', nth_error tbl4 j = Some e' /\ he_next e' = he_next e /\ he_key e' = he_key e /\
       he_data e' = he_data e /\ he_status e' = he_status e /\ he_hash e' = he_hash e /\
       he_prev e' = (if match ht_head t with Some h => Nat.eqb h j | None => false end then Some i else he_prev e)).
  { intros j e Hj Hji. rewrite Hnth, Hj. destruct (Nat.eqb_spec i j); [congruence|].
    eexists; split; [reflexivity|]. destruct (ht_head t) as [h|]; [destruct (Nat.eqb h j)|]; cbn; repeat split; reflexivity. }
  assert (Hnew : nth_error tbl4 i = Some (mkHE (Some k) (Some d) (hf k) (ht_head t) None INUSE)).
  { rewrite Hnth, Nat.eqb_refl. reflexivity. }
  clearbody tbl4. clear tbl3 tbl2 tbl1.
  eexists _, i. split; [reflexivity|]. split; [|reflexivity].
  assert (Hreach : forall s' j, reach (ht_table t) s' j -> reach tbl4 s' j).
  { intros s' j (dd & Hdd & Hj & Hb). exists dd. rewrite Hlen4. repeat split; auto.
    intros d' Hd'. destruct (Hb d' Hd') as (e & He & Hes).
    destruct (Nat.eq_dec (slot (length (ht_table t)) s' d') i) as [Heq|Hne].
    - rewrite Heq. eexists; split; [exact Hnew|]. cbn; congruence.
    - destruct (Hold _ _ He Hne) as (e' & He' & _ & _ & _ & Hs' & _). exists e'. split; [auto|congruence]. }
  constructor; cbn [ht_size ht_count ht_hashfunc ht_keycmp ht_table ht_head].
  - congruence.
  - auto.
  - apply (inv_hf _ _ _ _ _ I).
  - apply (inv_cmp _ _ _ _ _ I).
  - reflexivity.
  - cbn [linked]. eexists; split; [exact Hnew|]. cbn.
    split; [reflexivity|]. split; [apply (inv_head _ _ _ _ _ I)|].
    pose proof (inv_links _ _ _ _ _ I) as Hlk. pose proof (inv_head _ _ _ _ _ I) as Hh.
    pose proof (inv_nodup _ _ _ _ _ I) as Hnd.
    destruct l as [|h r]; cbn in *; [auto|].
    destruct Hlk as (e & He & Hp & Hn & Hl).
    destruct (Hold h e He) as (e' & He' & Hn' & _ & _ & _ & _ & Hp'); [intros ->; apply Hil; left; auto|].
    exists e'. rewrite Hh, Nat.eqb_refl in Hp'. repeat split; try congruence.
    inversion Hnd as [|? ? Hhr Hndr]; subst.
    eapply linked_ext; [|exact Hl]. intros j ej Hj Hej.
    destruct (Hold j ej Hej) as (e'' & He'' & Hn'' & _ & _ & _ & _ & Hp''); [intros ->; apply Hil; right; auto|].
    exists e''. rewrite Hh in Hp''. destruct (Nat.eqb_spec h j) as [->|]; [contradiction|]. auto.
  - constructor; [auto|]. apply (inv_nodup _ _ _ _ _ I).
  - intros j e Hj Hes. destruct (Nat.eq_dec j i) as [->|Hne]; [left; auto|right].
    rewrite Hnth in Hj. destruct (Nat.eqb_spec i j); [congruence|].
    destruct (nth_error (ht_table t) j) as [ej|] eqn:Hej; [|discriminate].
    injection Hj as Hj. eapply (inv_inuse _ _ _ _ _ I); [exact Hej|].
    destruct (ht_head t) as [h|]; [destruct (Nat.eqb h j)|]; subst e; auto.
  - constructor.
    + eexists; split; [exact Hnew|]. cbn; auto.
    + eapply Forall2_impl_In; [|apply (inv_cont _ _ _ _ _ I)].
      intros j kd Hj (e & He & Hs' & Hk & Hdt).
      destruct (Hold j e He) as (e' & He' & _ & Hk' & Hd' & Hs'' & _); [intros ->; contradiction|].
      exists e'. repeat split; congruence.
  - cbn [length]. pose proof (inv_count _ _ _ _ _ I). lia.
  - lia.
  - intros j e k' Hj Hes Hk'. unfold start; cbn [ht_size]. fold (start t (hf k')).
    destruct (Nat.eq_dec j i) as [->|Hne].
    + rewrite Hnew in Hj. injection Hj as <-. cbn in Hk'. injection Hk' as <-. cbn. split; [auto|].
      exists d0. rewrite Hlen4. repeat split; auto. intros d' Hd'.
      destruct (Hbefore d' Hd') as (e & He & Hst).
      destruct (Hold _ _ He) as (e' & He' & _ & _ & _ & Hst' & _).
      { intros Heq. apply slot_inj in Heq; auto; lia. }
      exists e'. split; [exact He'|congruence].
    + assert (exists ej, nth_error (ht_table t) j = Some ej) as [ej Hej].
      { apply nth_error_lt_Some. apply nth_error_Some_lt in Hj. lia. }
      destruct (Hold _ _ Hej Hne) as (e' & He' & _ & Hk'' & _ & Hs'' & Hh' & _).
      rewrite Hj in He'. injection He' as <-.
      destruct (inv_entry _ _ _ _ _ I j ej k' Hej) as [Q1 Q2]; try congruence.
      split; [congruence|]. apply Hreach; exact Q2.
Qed.

(** *** create / grow *)
Lemma fresh_inv {K D} (hf : K -> Z) cmp (size : Z) : 0 < size ->
  ht_inv (D:=D) hf cmp (mkHT size 0 (Some hf) (Some cmp) (repeat empty_entry (Z.to_nat size)) None) [] [].
Proof.
  intros Hp. constructor; cbn; auto; try lia.
  - rewrite repeat_length. lia.
  - constructor.
  - intros i e Hi Hs. apply nth_error_In, repeat_spec in Hi. subst e. discriminate.
  - assert (0 <= size / 2) by (apply Z.div_pos; lia). lia.
  - intros i e k Hi Hs. apply nth_error_In, repeat_spec in Hi. subst e. discriminate.
Qed.

Lemma create_spec {K D} ps n (hf : K -> Z) cmp :
  48 <= ps -> 0 < n ->
  exists t, create_hashtable ps n hf cmp = Ok t /\ ht_inv (D:=D) hf cmp t [] [] /\ n <= ht_size t.
Proof.
  intros Hps Hn. unfold create_hashtable, sizeof_hash_entry.
  assert (1 <= ps / 48) by (apply Z.div_le_lower_bound; lia).
  destruct (Z.eqb_spec (ps / 48) 0); [lia|].
  pose proof (Z.mod_pos_bound n (ps / 48)) as Hm.
  eexists; split; [reflexivity|].
  destruct (Z.eqb_spec (n mod (ps / 48)) 0); cbn [negb]; (split; [apply fresh_inv; lia|cbn; lia]).
Qed.

(** the in-use entries of an array, as key/data pairs *)
Fixpoint live {K D} (es : list (hentry K D)) : list (K * D) :=
  match es with
  | [] => []
  | e :: r => match he_status e, he_key e, he_data e with
              | INUSE, Some k, Some d => (k, d) :: live r
              | _, _, _ => live r
              end
  end.

Definition good_entry {K D} (hf : K -> Z) (e : hentry K D) : Prop :=
  he_status e = INUSE -> exists k d, he_key e = Some k /\ he_data e = Some d /\ he_hash e = hf k.

Lemma grow_loop_spec {K D} {hf cmp} (es : list (hentry K D)) :
  Forall (good_entry hf) es ->
  forall nt l c, ht_inv hf cmp nt l c ->
    Z.of_nat (length c + length (live es)) <= ht_size nt / 2 + 1 ->
  exists nt' l', grow_loop es nt = Ok nt' /\
    ht_inv hf cmp nt' l' (rev (live es) ++ c) /\ ht_size nt' = ht_size nt.
Proof.
  induction es as [|e es IH]; intros Hg nt l c I Hld; cbn [grow_loop live].
  - exists nt, l. cbn. auto.
  - inversion Hg as [|? ? Hge Hgs]; subst. cbn [live] in Hld. destruct (he_status e) eqn:Hs.
    1,2: eapply IH; eauto.
    destruct (Hge Hs) as (k & d & Hk & Hd & Hh). rewrite Hk, Hd in *. cbn [length rev app] in *.
    destruct (insert_spec nt l c k d I) as (nt1 & i & Hins & I1 & Hsz).
    { pose proof (inv_count _ _ _ _ _ I). pose proof (Forall2_length _ _ _ (inv_cont _ _ _ _ _ I)) as Hl0. cbn in Hl0. lia. }
    rewrite Hh, Hins. cbn [bind].
    destruct (IH Hgs nt1 (i :: l) ((k, d) :: c) I1) as (nt' & l' & H1 & H2 & H3).
    { rewrite Hsz. cbn [length]. lia. }
    exists nt', l'. rewrite <- app_assoc. cbn. split; [auto|split; [auto|congruence]].
Qed.

Lemma inv_good {K D} {hf cmp} {t : htable K D} {l c} : ht_inv hf cmp t l c ->
  Forall (good_entry hf) (ht_table t).
Proof.
  intros I. apply Forall_forall. intros e He Hs.
  apply In_nth_error in He as [i Hi].
  pose proof (inv_inuse _ _ _ _ _ I i e Hi Hs) as Hin.
  destruct (inv_in_l I i Hin) as ([k d] & _ & e' & H1 & H2 & H3 & H4).
  rewrite Hi in H1. injection H1 as <-. exists k, d. cbn in *. repeat split; auto.
  apply (inv_entry _ _ _ _ _ I i e k Hi Hs H3).
Qed.

(** slots in use, in array order *)
Fixpoint live_idx {K D} (n : nat) (es : list (hentry K D)) : list nat :=
  match es with
  | [] => []
  | e :: r => match he_status e with INUSE => n :: live_idx (S n) r | _ => live_idx (S n) r end
  end.

Lemma live_idx_In {K D} (es : list (hentry K D)) n i :
  In i (live_idx n es) <-> exists j e, i = (n + j)%nat /\ nth_error es j = Some e /\ he_status e = INUSE.
Proof.
  revert n. induction es as [|e es IH]; intros n; cbn [live_idx].
  - split; [intros []|]. intros (j & e & _ & H & _). destruct j; discriminate.
  - assert (Hrec : In i (live_idx (S n) es) <-> exists j e', i = (n + S j)%nat /\ nth_error es j = Some e' /\ he_status e' = INUSE).
    { rewrite IH. split; intros (j & e' & H1 & H2); exists j, e'; split; auto; lia. }
    destruct (he_status e) eqn:Hs; cbn [In]; rewrite ?Hrec; split.
    1,3: intros (j & e' & H1 & H2); exists (S j), e'; auto.
    1,2: intros ([|j] & e' & H1 & H2 & H3); [cbn in H2; congruence|exists j, e'; auto].
    + intros [<-|(j & e' & H1 & H2)]; [exists O, e; repeat split; auto|exists (S j), e'; auto].
    + intros ([|j] & e' & H1 & H2 & H3); [left; lia|right; exists j, e'; auto].
Qed.

Lemma live_idx_NoDup {K D} (es : list (hentry K D)) n : NoDup (live_idx n es).
Proof.
  revert n. induction es as [|e es IH]; intros n; cbn [live_idx]; [constructor|].
  destruct (he_status e); auto. constructor; auto.
  rewrite live_idx_In. intros (j & e' & H & _). lia.
Qed.

Lemma live_holds {K D} hf (es : list (hentry K D)) : Forall (good_entry hf) es ->
  forall pre, Forall2 (holds (pre ++ es)) (live_idx (length pre) es) (live es).
Proof.
  induction 1 as [|e es He Hes IH]; intros pre; cbn [live_idx live]; [constructor|].
  assert (Hr := IH (pre ++ [e])). rewrite <- app_assoc in Hr. cbn [app] in Hr.
  rewrite app_length in Hr. cbn [length] in Hr. rewrite Nat.add_1_r in Hr.
  destruct (he_status e) eqn:Hs; auto.
  destruct (He Hs) as (k & d & Hk & Hd & _). rewrite Hk, Hd. constructor; auto.
  exists e. rewrite nth_error_app2, Nat.sub_diag by lia. cbn. auto.
Qed.

Lemma holds_fun {K D} (tbl : list (hentry K D)) i a b : holds tbl i a -> holds tbl i b -> a = b.
Proof.
  intros (e & H1 & _ & H2 & H3) (e' & H1' & _ & H2' & H3').
  rewrite H1 in H1'. injection H1' as <-. destruct a, b; cbn in *; congruence.
Qed.

Lemma Forall2_perm {A B} (R : A -> B -> Prop) l l' c :
  Permutation l l' -> Forall2 R l c -> exists c', Permutation c c' /\ Forall2 R l' c'.
Proof.
  intros HP. revert c. induction HP as [|x l l' HP IH|x y l|l l' l'' H1 IH1 H2 IH2]; intros c H.
  - inversion H; subst. exists []. split; [constructor|constructor].
  - inversion H as [|? b ? c' Hab Hl]; subst. destruct (IH _ Hl) as (c2 & Hp & Hf).
    exists (b :: c2). split; [constructor; auto|constructor; auto].
  - inversion H as [|? b ? c' Hab Hl]; subst. inversion Hl as [|? b' ? c2 Hab' Hl']; subst.
    exists (b' :: b :: c2). split; [apply perm_swap|repeat constructor; auto].
  - destruct (IH1 _ H) as (c1 & Hp1 & Hf1). destruct (IH2 _ Hf1) as (c2 & Hp2 & Hf2).
    exists c2. split; [eapply perm_trans; eauto|auto].
Qed.

Lemma Forall2_fun {A B} (R : A -> B -> Prop) : (forall a b b', R a b -> R a b' -> b = b') ->
  forall l c c', Forall2 R l c -> Forall2 R l c' -> c = c'.
Proof.
  intros HR l c c' H. revert c'. induction H as [|a b l c Hab H IH]; intros c' H'; inversion H'; subst; auto.
  f_equal; eauto.
Qed.

Lemma live_perm {K D} {hf cmp} {t : htable K D} {l c} : ht_inv hf cmp t l c ->
  Permutation c (live (ht_table t)).
Proof.
  intros I.
  assert (HP : Permutation l (live_idx 0 (ht_table t))).
  { apply NoDup_Permutation; [apply (inv_nodup _ _ _ _ _ I)|apply live_idx_NoDup|].
    intros i. rewrite live_idx_In. split.
    - intros Hi. destruct (inv_in_l I _ Hi) as (kd & _ & e & H1 & H2 & _). exists i, e. auto.
    - intros (j & e & -> & H1 & H2). cbn. eapply (inv_inuse _ _ _ _ _ I); eauto. }
  destruct (Forall2_perm _ _ _ _ HP (inv_cont _ _ _ _ _ I)) as (c' & Hp & Hf).
  pose proof (live_holds hf (ht_table t) (inv_good I) []) as Hl. cbn in Hl.
  rewrite <- (Forall2_fun _ (fun i a b => holds_fun (ht_table t) i a b) _ _ _ Hf Hl). exact Hp.
Qed.

Lemma inv_count_c {K D} {hf cmp} {t : htable K D} {l c} : ht_inv hf cmp t l c ->
  ht_count t = Z.of_nat (length c).
Proof.
  intros I. rewrite (inv_count _ _ _ _ _ I). f_equal. apply (Forall2_length _ _ _ (inv_cont _ _ _ _ _ I)).
Qed.

Lemma grow_spec {K D} {hf cmp} (t : htable K D) l c ns :
  ht_inv hf cmp t l c -> 0 < ns -> ht_count t <= ns / 2 + 1 ->
  exists t' l' c', grow_hashtable t ns = Ok t' /\ ht_inv hf cmp t' l' c' /\
    Permutation c c' /\ ht_size t' = ns.
Proof.
  intros I Hns Hc. unfold grow_hashtable. rewrite (inv_hf _ _ _ _ _ I), (inv_cmp _ _ _ _ _ I).
  pose proof (live_perm I) as HP.
  destruct (grow_loop_spec (ht_table t) (inv_good I) _ [] [] (fresh_inv hf cmp ns Hns)) as (t' & l' & H1 & H2 & H3).
  { cbn [length ht_size]. rewrite <- (Permutation_length HP). rewrite (inv_count_c I) in Hc. lia. }
  exists t', l', (rev (live (ht_table t))). rewrite app_nil_r in H2. split; [exact H1|]. split; [exact H2|]. split; [|exact H3].
  etransitivity; [exact HP|]. apply Permutation_rev.
Qed.

Lemma grow_size_ok fuel count size : 0 < size -> count <= size / 2 -> (0 < fuel)%nat -> grow_size fuel count size = Ok size.
Proof.
  intros H1 H2 Hf. destruct fuel; [lia|]. cbn. rewrite Z.gtb_ltb. destruct (Z.ltb_spec (size / 2) count); [lia|reflexivity].
Qed.

(** from a load of at most size/2+1 the loop runs at most twice *)
Lemma grow_size_spec fuel count size : 0 < size -> 0 <= count <= size / 2 + 1 -> (2 < fuel)%nat ->
  exists ns, grow_size fuel count size = Ok ns /\ count <= ns / 2 /\ size <= ns /\
     (ns = size \/ (size / 2 < count /\ ns = 2 * size)).
Proof.
  intros H1 H2 Hf. destruct (Z_le_gt_dec count (size / 2)) as [Hle|Hgt].
  - exists size. rewrite grow_size_ok by lia. repeat split; auto; lia.
  - destruct fuel as [|[|[|fuel]]]; try lia. cbn [grow_size]. rewrite !Z.gtb_ltb.
    destruct (Z.ltb_spec (size / 2) count); [|lia].
    rewrite Z.div_mul by lia.
    destruct (Z.ltb_spec size count).
    + (* only possible for size = 1?  count <= size/2+1 <= size for size >= 1 *)
      assert (size / 2 < size) by (apply Z.div_lt; lia). lia.
    + exists (size * 2). repeat split; try lia. rewrite Z.div_mul; lia.
Qed.

(** *** addto_hashtable *)
Lemma addto_spec {K D} {hf cmp} (t : htable K D) l c k d : ht_inv hf cmp t l c ->
  exists t' l' c', addto_hashtable t k d = Ok t' /\ ht_inv hf cmp t' l' ((k, d) :: c') /\
    Permutation c c' /\
    (ht_count t <= ht_size t / 2 -> c' = c /\ ht_size t' = ht_size t) /\
    (ht_size t / 2 < ht_count t -> ht_size t' = 2 * ht_size t).
Proof.
  intros I. unfold addto_hashtable.
  pose proof (inv_pos _ _ _ _ _ I) as Hpos. pose proof (inv_load _ _ _ _ _ I) as Hload.
  pose proof (inv_count _ _ _ _ _ I) as Hcnt.
  assert (HG : exists ns, grow_size (S (S (Z.to_nat (ht_count t)))) (ht_count t) (ht_size t) = Ok ns /\ ht_count t <= ns / 2 /\ ht_size t <= ns /\
     (ns = ht_size t \/ (ht_size t / 2 < ht_count t /\ ns = 2 * ht_size t))).
  { destruct (Z_le_gt_dec (ht_count t) (ht_size t / 2)) as [Hle|Hgt].
    - exists (ht_size t). rewrite grow_size_ok by lia. repeat split; auto; lia.
    - assert (0 <= ht_size t / 2) by (apply Z.div_pos; lia).
      apply grow_size_spec; lia. }
  destruct HG as (ns & HG & HG1 & HG2 & HG3). rewrite HG. cbn [bind].
  destruct (Z.eqb_spec ns (ht_size t)) as [->|Hne].
  - cbn [bind]. rewrite (inv_hf _ _ _ _ _ I).
    destruct (insert_spec t l c k d I HG1) as (t' & i & H1 & H2 & H3).
    rewrite H1. cbn [bind]. exists t', (i :: l), c. split; [reflexivity|]. split; [exact H2|]. split; [reflexivity|]. split; [auto|lia].
  - destruct (grow_spec t l c ns I) as (t1 & l1 & c1 & H1 & H2 & H3 & H4); try lia.
    rewrite H1. cbn [bind]. rewrite (inv_hf _ _ _ _ _ H2).
    destruct (insert_spec t1 l1 c1 k d H2) as (t' & i & H5 & H6 & H7).
    { rewrite (inv_count_c H2), <- (Permutation_length H3), <- (inv_count_c I), H4. exact HG1. }
    rewrite H5. cbn [bind]. exists t', (i :: l1), c1. split; [reflexivity|]. split; [exact H6|]. split; [exact H3|]. split; lia.
Qed.

(** *** lookup *)
Definition match_key {K} (hf : K -> Z) (cmp : K -> K -> Z) (k' k : K) : Prop := hf k' = hf k /\ cmp k' k = 0.

Lemma lookup_loop_spec {K D} {hf cmp} (t : htable K D) l c k : ht_inv hf cmp t l c ->
  let tbl := ht_table t in let n := length tbl in let s := start t (hf k) in
  forall fuel d, (fuel + d = n)%nat -> (d < n)%nat ->
  (forall d', (d' < d)%nat -> exists e, nth_error tbl (slot n s d') = Some e /\ he_status e <> EMPTY /\
      (he_status e = INUSE -> forall k', he_key e = Some k' -> ~ match_key hf cmp k' k)) ->
  (exists i e k' dt, lookup_loop fuel tbl n cmp k (hf k) (slot n s d) s = Ok (Some i) /\ nth_error tbl i = Some e /\
     he_status e = INUSE /\ he_key e = Some k' /\ he_data e = Some dt /\ match_key hf cmp k' k)
  \/ (lookup_loop fuel tbl n cmp k (hf k) (slot n s d) s = Ok None /\
      forall k' d', In (k', d') c -> ~ match_key hf cmp k' k).
Proof.
  intros I tbl n s. assert (Hs : (s < n)%nat) by apply (start_lt I).
  (* no match anywhere, if the slots before some EMPTY slot / all slots do not match *)
  assert (Hnone : forall d, (d <= n)%nat ->
     (forall d', (d' < d)%nat -> exists e, nth_error tbl (slot n s d') = Some e /\ he_status e <> EMPTY /\
      (he_status e = INUSE -> forall k', he_key e = Some k' -> ~ match_key hf cmp k' k)) ->
     (d = n \/ exists e, nth_error tbl (slot n s d) = Some e /\ he_status e = EMPTY) ->
     forall k' d', In (k', d') c -> ~ match_key hf cmp k' k).
  { intros d Hdn Hb Hend k' d' Hin Hm.
    destruct (Forall2_In_r _ _ _ _ (inv_cont _ _ _ _ _ I) Hin) as (i & Hi & e & He & Hst & Hk & Hd). cbn in Hk.
    destruct (inv_entry _ _ _ _ _ I i e k' He Hst Hk) as (_ & dd & Hdd & Hii & Hbb).
    destruct Hm as [Hm1 Hm2]. rewrite Hm1 in Hii, Hbb. fold tbl n s in Hii, Hbb, Hdd.
    destruct (le_lt_dec d dd) as [Hle|Hlt].
    - destruct Hend as [->|(e' & He' & Hem)]; [lia|].
      destruct (Nat.eq_dec d dd) as [->|Hne].
      + rewrite <- Hii in He'. fold tbl in He. rewrite He in He'. injection He' as <-. congruence.
      + destruct (Hbb d) as (e'' & He'' & Hne''); [lia|]. rewrite He' in He''. injection He'' as <-. congruence.
    - destruct (Hb dd Hlt) as (e' & He' & _ & Hnm). rewrite <- Hii in He'. fold tbl in He. rewrite He in He'. injection He' as <-.
      apply (Hnm Hst k' Hk). split; auto. }
  induction fuel as [|f IH]; intros d Hf Hd Hb; [lia|].
  cbn [lookup_loop].
  destruct (nth_error_lt_Some tbl (slot n s d)) as [e He]; [apply slot_lt; auto|].
  rewrite He.
  assert (Hadv : he_status e <> EMPTY -> (he_status e = INUSE -> forall k', he_key e = Some k' -> ~ match_key hf cmp k' k) ->
     let index' := (if Nat.eqb (S (slot n s d)) n then O else S (slot n s d)) in
     let r := (if Nat.eqb index' s then Ok None else lookup_loop f tbl n cmp k (hf k) index' s) in
     (exists i e k' dt, r = Ok (Some i) /\ nth_error tbl i = Some e /\
       he_status e = INUSE /\ he_key e = Some k' /\ he_data e = Some dt /\ match_key hf cmp k' k)
     \/ (r = Ok None /\ forall k' d', In (k', d') c -> ~ match_key hf cmp k' k)).
  { intros Hne Hnm index' r.
    assert (Hb' : forall d', (d' < S d)%nat -> exists e, nth_error tbl (slot n s d') = Some e /\ he_status e <> EMPTY /\
      (he_status e = INUSE -> forall k', he_key e = Some k' -> ~ match_key hf cmp k' k)).
    { intros d' Hd'. destruct (Nat.eq_dec d' d) as [->|]; [eauto 6|]. apply Hb; lia. }
    destruct (Nat.eq_dec (S d) n) as [Hlast|Hlast].
    - right. subst r index'. rewrite slot_step_last by auto. rewrite Nat.eqb_refl. split; [reflexivity|].
      apply (Hnone (S d)); auto; lia.
    - subst r index'. rewrite slot_step by lia.
      replace (Nat.eqb (slot n s (S d)) s) with false
        by (symmetry; apply Nat.eqb_neq; apply slot_neq_start; lia).
      apply IH; auto; lia. }
  destruct (he_status e) eqn:Hst.
  - cbn [bind]. right. split; [reflexivity|]. apply (Hnone d); [lia|auto|]. right; eauto.
  - cbn [bind]. apply Hadv; congruence.
  - pose proof (inv_inuse _ _ _ _ _ I _ _ He Hst) as Hin.
    destruct (inv_in_l I _ Hin) as ([k' dt] & _ & e' & He' & _ & Hk & Hdt). cbn in Hk, Hdt.
    unfold tbl in He. rewrite He in He'. injection He' as <-. fold tbl in He.
    destruct (inv_entry _ _ _ _ _ I _ _ _ He Hst Hk) as [Hh _].
    rewrite Hh, Hk.
    destruct (Z.eqb_spec (hf k') (hf k)) as [Heq|Hneq]; cbn [bind].
    + destruct (Z.eqb_spec (cmp k' k) 0) as [Hc|Hc]; cbn [bind].
      * left. exists (slot n s d), e, k', dt. repeat split; auto.
      * apply Hadv; [congruence|]. intros _ k'' Hk''. rewrite Hk in Hk''. injection Hk'' as <-. intros [_ ?]; contradiction.
    + apply Hadv; [congruence|]. intros _ k'' Hk''. rewrite Hk in Hk''. injection Hk'' as <-. intros [? _]; contradiction.
Qed.

Lemma lookup_spec {K D} {hf cmp} (t : htable K D) l c k : ht_inv hf cmp t l c ->
  (exists i e k' dt, lookup t k = Ok (Some i) /\ nth_error (ht_table t) i = Some e /\
     he_status e = INUSE /\ he_key e = Some k' /\ he_data e = Some dt /\ match_key hf cmp k' k)
  \/ (lookup t k = Ok None /\ forall k' d', In (k', d') c -> ~ match_key hf cmp k' k).
Proof.
  intros I. unfold lookup. rewrite (inv_hf _ _ _ _ _ I), (inv_cmp _ _ _ _ _ I).
  pose proof (inv_pos _ _ _ _ _ I). pose proof (inv_len _ _ _ _ _ I).
  destruct (Z.eqb_spec (ht_size t) 0); [lia|]. rewrite (to_nat_size I).
  pose proof (start_lt I (hf k)) as Hs.
  pose proof (lookup_loop_spec t l c k I (length (ht_table t)) 0) as HL. cbn zeta in HL.
  rewrite slot_0 in HL by auto. apply HL; lia.
Qed.

Lemma lookup_hashtable_spec {K D} {hf cmp} (t : htable K D) l c k : ht_inv hf cmp t l c ->
  (exists k' dt, lookup_hashtable t k = Ok (Some dt) /\ In (k', dt) c /\ match_key hf cmp k' k)
  \/ (lookup_hashtable t k = Ok None /\ forall k' d', In (k', d') c -> ~ match_key hf cmp k' k).
Proof.
  intros I. unfold lookup_hashtable.
  destruct (lookup_spec t l c k I) as [(i & e & k' & dt & HL & He & Hs & Hk & Hd & Hm)|[HL Hn]]; rewrite HL; cbn [bind].
  - left. exists k', dt. rewrite He, Hd. repeat split; auto; try apply Hm.
    pose proof (inv_inuse _ _ _ _ _ I _ _ He Hs) as Hin.
    destruct (inv_in_l I _ Hin) as ([k2 d2] & Hc & e' & He' & _ & Hk2 & Hd2). cbn in *. congruence.
  - right. auto.
Qed.

(** *** removefrom_hashtable *)
Lemma NoDup_split_neq {A} (l1 : list A) x l2 : NoDup (l1 ++ x :: l2) -> ~ In x l1 /\ ~ In x l2 /\ NoDup (l1 ++ l2).
Proof.
  intros H. pose proof (NoDup_remove_1 _ _ _ H). pose proof (NoDup_remove_2 _ _ _ H) as H2.
  rewrite in_app_iff in H2. tauto.
Qed.

Lemma linked_remove {K D} (tbl tbl' : list (hentry K D)) i l2 :
  forall prev l1,
  linked tbl prev (l1 ++ i :: l2) -> NoDup (l1 ++ i :: l2) ->
  (match prev with Some p => ~ In p (l1 ++ i :: l2) | None => True end) ->
  (forall j e, In j (l1 ++ l2) -> nth_error tbl j = Some e ->
     exists e', nth_error tbl' j = Some e' /\
       he_prev e' = (if match hd_error l2 with Some nx => Nat.eqb nx j | None => false end
                     then (match rev l1 with [] => prev | p :: _ => Some p end) else he_prev e) /\
       he_next e' = (if match rev l1 with p :: _ => Nat.eqb p j | [] => false end
                     then hd_error l2 else he_next e)) ->
  linked tbl' prev (l1 ++ l2).
Proof.
  intros prev l1. revert prev. induction l1 as [|a l1 IH]; intros prev HL HN Hprev Hext.
  - cbn [app rev] in *. cbn [linked] in HL. destruct HL as (e & He & Hp & Hn & HL).
    inversion HN as [|? ? Hi2 HN2]; subst.
    destruct l2 as [|b r]; [exact I|]. cbn [linked hd_error] in *.
    destruct HL as (eb & Heb & Hpb & Hnb & HLb). inversion HN2 as [|? ? Hb HN3]; subst.
    destruct (Hext b eb (or_introl eq_refl) Heb) as (e' & He' & Hp' & Hn').
    rewrite Nat.eqb_refl in Hp'. exists e'. repeat split; try congruence.
    eapply linked_ext; [|exact HLb]. intros j ej Hj Hej.
    destruct (Hext j ej (or_intror Hj) Hej) as (e'' & He'' & Hp'' & Hn'').
    exists e''. destruct (Nat.eqb_spec b j) as [->|]; [contradiction|]. auto.
  - cbn [app] in *. cbn [linked] in HL |- *. destruct HL as (e & He & Hp & Hn & HL).
    inversion HN as [|? ? Ha HN2]; subst.
    destruct (Hext a e (or_introl eq_refl) He) as (e' & He' & Hp' & Hn').
    assert (Hal2 : match hd_error l2 with Some nx => Nat.eqb nx a | None => false end = false).
    { destruct l2 as [|b r]; [reflexivity|]. cbn. apply Nat.eqb_neq. intros ->. apply Ha. apply in_or_app. right; right; left; auto. }
    rewrite Hal2 in Hp'. exists e'. split; [exact He'|]. split; [congruence|].
    assert (Hrev : rev (a :: l1) = rev l1 ++ [a]) by reflexivity. rewrite Hrev in Hext, Hn'.
    destruct (rev l1) as [|p rr] eqn:Hr.
    + assert (l1 = []) by (destruct l1; [auto|]; cbn in Hr; destruct (rev l1); discriminate). subst l1. cbn [app] in *.
      rewrite Nat.eqb_refl in Hn'. split; [exact Hn'|].
      apply (IH (Some a)); auto. intros j ej Hj Hej.
      destruct (Hext j ej (or_intror Hj) Hej) as (e'' & He'' & Hp'' & Hn''). exists e''. split; [auto|]. split; [auto|].
      destruct (Nat.eqb_spec a j) as [->|]; [|auto]. exfalso; apply Ha; right; auto.
    + cbn [app] in Hext, Hn'.
      assert (Hpin : In p l1) by (rewrite in_rev, Hr; left; auto).
      assert (Hpa : Nat.eqb p a = false) by (apply Nat.eqb_neq; intros ->; apply Ha, in_or_app; auto).
      rewrite Hpa in Hn'. split.
      { rewrite Hn', Hn. destruct l1; [discriminate|reflexivity]. }
      apply (IH (Some a)); auto. intros j ej Hj Hej.
      destruct (Hext j ej (or_intror Hj) Hej) as (e'' & He'' & Hp'' & Hn''). exists e''. auto.
Qed.

Lemma remove_spec {K D} {hf cmp} (t : htable K D) l c k : ht_inv hf cmp t l c ->
  (exists t' l1 i l2 c1 k' d c2 e, removefrom_hashtable t k = Ok (t', true) /\
     l = l1 ++ i :: l2 /\ c = c1 ++ (k', d) :: c2 /\ length l1 = length c1 /\ match_key hf cmp k' k /\
     ht_inv hf cmp t' (l1 ++ l2) (c1 ++ c2) /\ ht_size t' = ht_size t /\
     nth_error (ht_table t') i = Some e /\ he_next e = hd_error l2)
  \/ (removefrom_hashtable t k = Ok (t, false) /\ forall k' d', In (k', d') c -> ~ match_key hf cmp k' k).
Proof.
  intros I. unfold removefrom_hashtable.
  destruct (lookup_spec t l c k I) as [(i & e & k' & dt & HL & He & Hs & Hk & Hd & Hm)|[HL Hn]]; rewrite HL; cbn [bind].
  2:{ right. auto. }
  left. rewrite He.
  pose proof (inv_inuse _ _ _ _ _ I _ _ He Hs) as Hin.
  apply in_split in Hin as (l1 & l2 & Hl). subst l.
  pose proof (inv_cont _ _ _ _ _ I) as HC.
  destruct (Forall2_app_inv_mid _ _ _ _ _ HC) as (c1 & kd & c2 & -> & HC1 & Hkd & HC2).
  assert (kd = (k', dt)).
  { destruct Hkd as (e' & He' & _ & Hk' & Hd'). rewrite He in He'. injection He' as <-. destruct kd; cbn in *; congruence. }
  subst kd.
  pose proof (inv_links _ _ _ _ _ I) as HLk. pose proof (inv_nodup _ _ _ _ _ I) as HN.
  destruct (linked_app _ _ _ _ _ HLk) as (e' & He' & Hnext & Hprev & _).
  rewrite He in He'. injection He' as <-.
  destruct (NoDup_split_neq _ _ _ HN) as (Hi1 & Hi2 & HN').
  set (tbl1 := upd (ht_table t) i _).
  set (tbl2 := match he_next e with Some nx => upd tbl1 nx _ | None => tbl1 end).
  set (tbl3 := match he_prev e with Some pv => upd tbl2 pv _ | None => tbl2 end).
  assert (Hlen3 : length tbl3 = length (ht_table t)).
  { subst tbl3 tbl2 tbl1. destruct (he_prev e), (he_next e); rewrite ?upd_length; reflexivity. }
  assert (Hprev_in : forall p, he_prev e = Some p -> In p l1).
  { intros p Hp. rewrite Hprev in Hp. destruct (rev l1) as [|q r] eqn:Hr; [discriminate|]. injection Hp as ->. rewrite in_rev, Hr. left; auto. }
  assert (Hnext_in : forall p, he_next e = Some p -> In p l2).
  { intros p Hp. rewrite Hnext in Hp. destruct l2; [discriminate|]. injection Hp as ->. left; auto. }
  assert (Hthis : exists ei, nth_error tbl3 i = Some ei /\ he_next ei = he_next e /\ he_status ei = TOMBSTONE).
  { subst tbl3 tbl2 tbl1. exists (mkHE None None 0 (he_next e) (he_prev e) TOMBSTONE). cbn. split; [|auto].
    destruct (he_prev e) as [pv|] eqn:Hpv; [rewrite nth_error_upd_neq by (intros ->; apply Hi1, Hprev_in; auto)|];
    (destruct (he_next e) as [nx|] eqn:Hnx; [rewrite nth_error_upd_neq by (intros ->; apply Hi2, Hnext_in; auto)|]);
    rewrite nth_error_upd_eq, He; cbn; congruence. }
  assert (Hother : forall j ej, j <> i -> nth_error (ht_table t) j = Some ej ->
    exists e', nth_error tbl3 j = Some e' /\ he_key e' = he_key ej /\ he_data e' = he_data ej /\
      he_hash e' = he_hash ej /\ he_status e' = he_status ej /\
      he_prev e' = (if match he_next e with Some nx => Nat.eqb nx j | None => false end then he_prev e else he_prev ej) /\
      he_next e' = (if match he_prev e with Some pv => Nat.eqb pv j | None => false end then he_next e else he_next ej)).
  { intros j ej Hji Hej. subst tbl3 tbl2 tbl1.
    destruct (he_prev e) as [pv|] eqn:Hpv; destruct (he_next e) as [nx|] eqn:Hnx;
    rewrite ?nth_error_upd; destruct (Nat.eqb_spec i j); try congruence; rewrite Hej;
    try destruct (Nat.eqb_spec pv j); try destruct (Nat.eqb_spec nx j); cbn;
    eexists; (split; [reflexivity|]); cbn; repeat split; auto. }
  clearbody tbl3. clear tbl2 tbl1.
  destruct Hthis as (ei & Hei & Hein & Heis).
  do 9 eexists. split; [reflexivity|]. split; [reflexivity|]. split; [reflexivity|].
  split; [apply (Forall2_length _ _ _ HC1)|]. split; [exact Hm|]. cbn [ht_table ht_size].
  split; [|split; [reflexivity|split; [exact Hei|congruence]]].
  constructor; cbn [ht_size ht_count ht_hashfunc ht_keycmp ht_table ht_head].
  - rewrite Hlen3. apply (inv_len _ _ _ _ _ I).
  - apply (inv_pos _ _ _ _ _ I).
  - apply (inv_hf _ _ _ _ _ I).
  - apply (inv_cmp _ _ _ _ _ I).
  - rewrite (inv_head _ _ _ _ _ I). destruct l1 as [|a l1].
    + cbn. rewrite Nat.eqb_refl. exact Hnext.
    + cbn. destruct (Nat.eqb_spec a i) as [->|]; [exfalso; apply Hi1; left; auto|reflexivity].
  - eapply linked_remove; [exact HLk|exact HN|exact Logic.I|].
    intros j ej Hj Hej.
    assert (Hji : j <> i). { intros ->. apply in_app_iff in Hj. tauto. }
    destruct (Hother j ej Hji Hej) as (e' & He' & _ & _ & _ & _ & Hp' & Hn').
    exists e'. split; [exact He'|]. rewrite Hnext in Hp', Hn'. rewrite Hprev in Hp', Hn'.
    split; [exact Hp'|]. rewrite Hn'. destruct (rev l1); reflexivity.
  - exact HN'.
  - intros j ej Hj Hsj.
    assert (Hji : j <> i) by (intros ->; congruence).
    destruct (nth_error_lt_Some (ht_table t) j) as [ej0 Hej0].
    { apply nth_error_Some_lt in Hj. lia. }
    destruct (Hother j ej0 Hji Hej0) as (e' & He' & _ & _ & _ & Hst & _).
    assert (In j (l1 ++ i :: l2)) as Hin' by (eapply (inv_inuse _ _ _ _ _ I); [exact Hej0|congruence]).
    apply in_app_iff in Hin'. apply in_app_iff. cbn in Hin'. destruct Hin' as [|[|]]; [auto|congruence|auto].
  - assert (HF : forall lx cx, (forall j, In j lx -> j <> i) -> Forall2 (holds (ht_table t)) lx cx -> Forall2 (holds tbl3) lx cx).
    { intros lx cx Hlx. apply Forall2_impl_In. intros j kd Hj (ej & Hej & Hsj & Hkj & Hdj).
      destruct (Hother j ej (Hlx j Hj) Hej) as (e' & He' & Hk' & Hd' & _ & Hst & _).
      exists e'. repeat split; congruence. }
    apply Forall2_app; apply HF; auto; intros j Hj ->; contradiction.
  - rewrite (inv_count _ _ _ _ _ I), !app_length. cbn [length]. lia.
  - pose proof (inv_load _ _ _ _ _ I). lia.
  - intros j ej kj Hj Hsj Hkj. unfold start; cbn [ht_size]. fold (start t (hf kj)).
    assert (Hji : j <> i) by (intros ->; congruence).
    destruct (nth_error_lt_Some (ht_table t) j) as [ej0 Hej0].
    { apply nth_error_Some_lt in Hj. lia. }
    destruct (Hother j ej0 Hji Hej0) as (e' & He' & Hk' & _ & Hh' & Hst & _).
    rewrite Hj in He'. injection He' as <-.
    destruct (inv_entry _ _ _ _ _ I j ej0 kj Hej0) as (Q1 & dd & Q2 & Q3 & Q4); try congruence.
    split; [congruence|]. exists dd. rewrite Hlen3. repeat split; auto.
    intros d' Hd'. destruct (Q4 d' Hd') as (ex & Hex & Hexs).
    destruct (Nat.eq_dec (slot (length (ht_table t)) (start t (hf kj)) d') i) as [Heq|Hne].
    + rewrite Heq. exists ei. split; [exact Hei|congruence].
    + destruct (Hother _ _ Hne Hex) as (e2 & He2 & _ & _ & _ & Hst2 & _). exists e2. split; [exact He2|congruence].
Qed.
