(** Lookups that run alongside additions and removals. *)
From Verif Require Import Base ListFacts HashModel HashProofs SpecHash HashTrace HashMoments SpecMoments MomentProofs RaceCores RaceModel SpecRace.
From Coq Require Import Permutation.

(** stores that leave size, functions and array alone *)
Definition plain {K D} (s : hstore K D) : Prop := match s with SSize _ | SHashfunc _ | SKeycmp _ | STable _ => False | _ => True end.
Lemma plain_frame {K D} l : forall t : htable K D, Forall plain l -> ht_size (happlys l t) = ht_size t /\ ht_hashfunc (happlys l t) = ht_hashfunc t /\ ht_keycmp (happlys l t) = ht_keycmp t.
Proof.
  induction l as [|s l IH]; intros t F; [auto|]. inversion F as [|? ? F1 F2]; subst. change (happlys (s :: l) t) with (happlys l (happly t s)). destruct (IH (happly t s) F2) as (A & B & C). rewrite A, B, C. destruct s; try contradiction F1; auto.
Qed.
Lemma links_plain {K D} (l : list (hstore K D)) : Forall link_store l -> Forall plain l.
Proof. apply Forall_impl. intros s. destruct s; cbn; tauto. Qed.
Lemma arun_app {K D} eqb (a b : list (hop K D)) : forall m, fst (SpecHash.arun eqb m (a ++ b)) = fst (SpecHash.arun eqb (fst (SpecHash.arun eqb m a)) b).
Proof.
  induction a as [|o a IH]; intros m; cbn [app SpecHash.arun fst]; [reflexivity|]. destruct (SpecHash.astep eqb m o) as [m1 x]. specialize (IH m1). destruct (SpecHash.arun eqb m1 (a ++ b)), (SpecHash.arun eqb m1 a). exact IH.
Qed.
Lemma absent_app {K D} eqb (a b : list (hop K D)) : forall m, adds_absent eqb m (a ++ b) -> adds_absent eqb m a /\ adds_absent eqb (fst (SpecHash.arun eqb m a)) b.
Proof.
  induction a as [|o a IH]; intros m H; cbn [app adds_absent SpecHash.arun fst] in *; [auto|]. destruct H as [H1 H2]. destruct (IH _ H2) as [H3 H4]. split; [auto|]. destruct (SpecHash.astep eqb m o) as [m1 x]. cbn [fst] in *. destruct (SpecHash.arun eqb m1 a). exact H4.
Qed.

Lemma ev_at K D (h : Z) (C C' : list (ecore K D)) j x : ev h C C' -> nth_error C j = Some x -> exists x', nth_error C' j = Some x' /\ ev1 h x x'.
Proof. intros (L & F) Hx. destruct (nth_error_lt_Some C' j) as [x' Hx']; [rewrite L; eapply nth_error_Some_lt; eauto|]. eauto. Qed.
Section Fix.
Context {K D : Type} (P : K -> Prop) (hf : K -> Z) (cmp : K -> K -> Z) (CO : cmp_ok P hf cmp).
Context (eqb : K -> K -> bool) (EO : eqb_ok eqb).
Context (ops : list (hop K D)) (m : list (K * D)) (N : Z).
Context (HA : adds_absent eqb m ops) (HP : Forall (fun o => P (op_key o)) ops) (HF : fits eqb N ops m).
Context (k : K) (Pk : P k) (HW : away hf ops k).
Notation h := (hf k).

(** *** the operations *)
Lemma op_next i o r : skipn i ops = o :: r -> (i < length ops)%nat /\ nth_error ops i = Some o /\ skipn (S i) ops = r /\ after eqb (S i) ops m = fst (SpecHash.astep eqb (after eqb i ops m) o) /\
  P (op_key o) /\ match o with HAdd k1 _ => aget eqb (after eqb i ops m) k1 = None | _ => True end.
Proof.
  intros E. assert (X : ops = firstn i ops ++ o :: r) by (rewrite <- E; symmetry; apply firstn_skipn).
  assert (L : (i < length ops)%nat). { destruct (Nat.lt_ge_cases i (length ops)) as [G|G]; [exact G|]. rewrite skipn_all2 in E by lia. discriminate E. }
  assert (L1 : length (firstn i ops) = i) by (apply firstn_length_le; lia).
  assert (F : firstn (S i) ops = firstn i ops ++ [o]).
  { rewrite X at 1. replace (S i) with (length (firstn i ops) + 1)%nat by lia. rewrite firstn_app_2. reflexivity. }
  split; [exact L|]. split; [rewrite X, nth_error_app2, L1, Nat.sub_diag by lia; reflexivity|]. split.
  { rewrite X at 1. replace (S i) with (length (firstn i ops) + 1)%nat by lia. rewrite skipn_app, skipn_all2 by lia. replace (length (firstn i ops) + 1 - length (firstn i ops))%nat with 1%nat by lia. reflexivity. }
  split; [unfold after; rewrite F, arun_app; cbn [SpecHash.arun]; destruct (SpecHash.astep eqb _ o); reflexivity|]. split.
  - rewrite X in HP. apply Forall_app in HP as [_ H]. inversion H; auto.
  - rewrite X in HA. apply absent_app in HA as [_ H]. cbn [adds_absent] in H. apply H.
Qed.
Definition good (t : htable K D) (i : nat) : Prop := exists l c, ht_inv hf cmp t l c /\ keys_in P c /\ NoDup (map fst c) /\ Permutation (after eqb i ops m) c /\
  ht_size t = N /\ blank t /\ (i <= length ops)%nat.
Lemma op_stores_hstep (t : htable K D) o l t' x : op_stores t o = Ok l -> hstep t o = Ok (t', x) -> t' = happlys l t.
Proof.
  clear. destruct o as [k1 d|k1|k1]; cbn [op_stores hstep]; intros E H.
  - pose proof (add_stores_ok t k1 d) as A. rewrite E in A. rewrite A in H. cbn [bind] in H. injection H as <- _. reflexivity.
  - pose proof (remove_stores_ok t k1) as A. rewrite E in A. destruct A as (b & A). rewrite A in H. cbn [bind] in H. injection H as <- _. reflexivity.
  - injection E as <-. destruct (lookup_hashtable t k1); cbn [bind] in H; [|discriminate H]. injection H as <- _. reflexivity.
Qed.
Lemma op_done t i o r : good t i -> skipn i ops = o :: r -> exists l, op_stores t o = Ok l /\ good (happlys l t) (S i).
Proof.
  intros (l & c & I & KI & ND & M & Sz & Bl & Li) E. destruct (op_next _ _ _ E) as (Lt & Nt & Nr & Na & Pk1 & Ab).
  assert (ND' : NoDup (map fst (after eqb i ops m))) by (eapply perm_fst; [apply Permutation_sym; exact M|exact ND]).
  assert (Ld : match o with HAdd _ _ => ht_count t <= ht_size t / 2 | _ => True end).
  { destruct o as [k1 d|k1|k1]; auto. rewrite (inv_count_c I), Sz, <- (Permutation_length M). eapply HF. exact Nt. }
  assert (Abc : match o with HAdd k1 _ => aget eqb c k1 = None | _ => True end) by (destruct o; auto; rewrite <- (aget_perm eqb EO _ _ _ M ND'); exact Ab).
  destruct (hstep_map P hf cmp CO eqb EO t l c _ o I KI Pk1 ND M Ab) as (t' & l' & c' & H & I' & K' & N' & M' & _).
  destruct (hstep_map P hf cmp CO eqb EO t l c c o I KI Pk1 ND (Permutation_refl c) Abc) as (t2 & l2 & c2 & H2 & _ & _ & _ & _ & S2). rewrite H in H2. injection H2 as <- _. destruct (S2 eq_refl Ld) as [_ Sz'].
  assert (X : exists st, op_stores t o = Ok st).
  { destruct o as [k1 d|k1|k1]; cbn [op_stores hstep] in *; [| |eauto].
    - pose proof (add_stores_ok t k1 d) as A. destruct (add_stores t k1 d); [eauto|]. rewrite A in H. discriminate H.
    - pose proof (remove_stores_ok t k1) as A. destruct (remove_stores t k1); [eauto|]. rewrite A in H. discriminate H. }
  destruct X as (st & Es). exists st. split; [exact Es|]. rewrite <- (op_stores_hstep _ _ _ _ _ Es H). exists l', c'. split; [exact I'|]. split; [exact K'|]. split; [exact N'|]. split; [rewrite Na; exact M'|]. split; [congruence|]. split; [eapply hstep_blank; eauto|lia].
Qed.

(** *** the shape of the stores: four to one entry, which is free (addition) or in use with another hash value (removal), then links *)
Definition four_of (y : nat) (o : hop K D) : list (hstore K D) :=
  match o with
  | HAdd k1 d1 => [SKey y (Some k1); SData y (Some d1); SHash y (hf k1); SStatus y INUSE]
  | _ => [SKey y None; SData y None; SHash y 0; SStatus y TOMBSTONE]
  end.
Lemma op_form t i o r l : good t i -> skipn i ops = o :: r -> op_stores t o = Ok l -> l = [] \/
  exists y B x, l = four_of y o ++ B /\ Forall link_store B /\ nth_error (cores t) y = Some x /\
    match o with HAdd _ _ => st x <> INUSE /\ hs x = 0 | _ => st x = INUSE /\ hs x <> h /\ h <> 0 end.
Proof.
  intros (l0 & c & I & KI & ND & M & Sz & Bl & Li) E Es. destruct (op_next _ _ _ E) as (Lt & Nt & Nr & Na & Pk1 & Ab). destruct o as [k1 d1|k1|k1]; cbn [op_stores op_key] in *.
  - right. assert (Load : ht_count t <= ht_size t / 2) by (rewrite (inv_count_c I), Sz, <- (Permutation_length M); eapply HF; exact Nt).
    pose proof (inv_pos _ _ _ _ _ I) as Hpos. unfold add_stores in Es. rewrite grow_size_ok in Es by lia. cbn [bind] in Es. rewrite Z.eqb_refl in Es. cbn [bind] in Es. rewrite (inv_hf _ _ _ _ _ I) in Es.
    unfold insert_stores in Es. destruct (Z.eqb_spec (ht_size t) 0); [lia|]. rewrite (to_nat_size I) in Es. fold (start t (hf k1)) in Es. pose proof (start_lt I (hf k1)) as Hs.
    destruct (insert_probe_spec (ht_table t) (start t (hf k1)) Hs (length (ht_table t)) 0) as [(d0 & e0 & Hd0 & Ep & He0 & Ne0 & _)|Hall]; [lia|lia|intros; lia| |].
    2:{ exfalso. apply (all_inuse_count I) in Hall. pose proof (inv_count _ _ _ _ _ I). pose proof (inv_len _ _ _ _ _ I). assert (ht_size t / 2 < ht_size t) by (apply Z.div_lt; lia). lia. }
    rewrite slot_0 in Ep by exact Hs. rewrite Ep in Es. cbn [bind] in Es. eexists. eexists. exists (core e0). split; [injection Es as <-; reflexivity|]. split; [destruct (ht_head t); repeat constructor|].
    split; [apply cores_nth; exact He0|]. split; [exact Ne0|]. apply Bl; [|exact Ne0]. eapply nth_error_In. apply cores_nth. exact He0.
  - destruct (remove_form _ _ _ Es) as [[-> _]|(y & B & Lk & -> & F)]; [left; reflexivity|]. right. destruct (lookup_spec t l0 c k1 I) as [(y' & e & k' & d' & L1 & He & Su & Hk & _ & Mk)|[L1 _]]; [|congruence]. assert (y' = y) by congruence. subst y'.
    destruct (HW k1 (nth_error_In _ _ Nt)) as [W1 W2]. exists y, B, (core e). split; [reflexivity|]. split; [exact F|]. split; [apply cores_nth; exact He|]. split; [exact Su|]. split; [|exact W2].
    destruct (inv_entry _ _ _ _ _ I _ _ _ He Su Hk) as [Hh _]. destruct Mk as [Mk _]. unfold hs, core. cbn. congruence.
  - left. congruence.
Qed.
Lemma op_plain t i o r l : good t i -> skipn i ops = o :: r -> op_stores t o = Ok l -> Forall plain l.
Proof.
  intros G E Es. destruct (op_form _ _ _ _ _ G E Es) as [->|(y & B & x & -> & F & _)]; [constructor|]. apply Forall_app. split; [destruct o; repeat constructor|apply links_plain; exact F].
Qed.
(** one store of an operation *)
Lemma op_ev t i o r l1 s l2 : good t i -> skipn i ops = o :: r -> op_stores t o = Ok (l1 ++ s :: l2) -> ev h (cores (happlys l1 t)) (cores (happly (happlys l1 t) s)).
Proof.
  intros G E Es. destruct (op_form _ _ _ _ _ G E Es) as [X|(y & B & x & X & F & Hx & Q)]; [destruct l1; discriminate X|]. rewrite cores_happly, cores_happlys. set (C := cores t) in *. clearbody C. clear -X F Hx Q.
  assert (Lk : forall a b, B = a ++ s :: b -> forall C0, ev h C0 (cstore s C0)).
  { intros a b -> C0. apply Forall_app in F as [_ F]. inversion F as [|? ? F1 _]; subst. destruct s; try contradiction F1; apply ev_refl. }
  destruct o as [k1 d1|k1|k1]; cbn [four_of app] in X.
  all: destruct l1 as [|? l1]; [injection X as -> _|injection X as -> X; destruct l1 as [|? l1]; [injection X as -> _|injection X as -> X; destruct l1 as [|? l1]; [injection X as -> _|injection X as -> X; destruct l1 as [|? l1]; [injection X as -> _|injection X as -> X; apply (Lk l1 l2); symmetry; exact X]]]].
  all: cbn [cstores fold_left cstore]; apply ev_upd; intros x'; rewrite ?nth_error_upd_eq, Hx; cbn [option_map]; intros Ex; injection Ex as <-; unfold ev1, st, hs, ky, dt in *; cbn [fst snd] in *; repeat split; try tauto; try congruence; try (intros; exfalso; intuition congruence).
Qed.
Lemma op_evs t i o r : good t i -> skipn i ops = o :: r -> forall l1 l2, op_stores t o = Ok (l1 ++ l2) -> ev h (cores t) (cores (happlys l1 t)).
Proof.
  intros G E. induction l1 as [|s l1 IH] using rev_ind; intros l2 Es; [apply ev_refl|]. rewrite <- app_assoc in Es. cbn [app] in Es. eapply ev_trans; [eapply IH; exact Es|]. rewrite happlys_app. cbn [happlys fold_left]. eapply op_ev; eauto.
Qed.
(** entries with the hash value of [k] are those of a key that is in the table or is being added *)
Definition raw (u : htable K D) (b : nat) : Prop := forall j x, nth_error (cores u) j = Some x -> hs x = h -> (h = 0 -> st x = INUSE) ->
  exists k' d', ky x = Some k' /\ dt x = Some d' /\ In (k', d') (after eqb b ops m) /\ P k' /\ hf k' = h.
Lemma good_raw t i : good t i -> raw t i.
Proof.
  intros (l & c & I & KI & ND & M & Sz & Bl & Li) j x Hx Hh Hz. destruct (cores_inv _ _ _ Hx) as (e & He & ->). assert (Su : he_status e = INUSE).
  { destruct (he_status e) eqn:S; [| |reflexivity]; exfalso; (assert (B0 : hs (core e) = 0) by (apply Bl; [eapply nth_error_In; exact Hx|unfold st, core; cbn; congruence])); assert (h = 0) as Z0 by congruence; specialize (Hz Z0); unfold st, core in Hz; cbn in Hz; congruence. }
  destruct (inv_in_l I _ (inv_inuse _ _ _ _ _ I _ _ He Su)) as ([k1 d1] & Hc & e2 & He2 & _ & K2 & D2). cbn [fst snd] in *. assert (e2 = e) by congruence. subst e2. exists k1, d1. split; [exact K2|]. split; [exact D2|].
  split; [apply (Permutation_in _ (Permutation_sym M)); exact Hc|]. split; [eapply keys_in_In; eauto|]. destruct (inv_entry _ _ _ _ _ I _ _ _ He Su K2) as [X _]. unfold hs, core in Hh. cbn in Hh. congruence.
Qed.
Lemma stays i o r k' d' : skipn i ops = o :: r -> hf k' = h -> In (k', d') (after eqb i ops m) -> In (k', d') (after eqb (S i) ops m).
Proof.
  intros E Hh Hi. destruct (op_next _ _ _ E) as (_ & Nt & _ & -> & _). destruct o as [k1 d1|k1|k1]; cbn [SpecHash.astep fst]; [right; exact Hi| |exact Hi]. unfold arem. apply filter_In. split; [exact Hi|]. cbn [fst]. destruct (eqb k' k1) eqn:Ek; [|reflexivity].
  apply EO in Ek. subst k1. destruct (HW k' (nth_error_In _ _ Nt)) as [W _]. congruence.
Qed.
Lemma op_raw t i o r l1 l2 : good t i -> skipn i ops = o :: r -> op_stores t o = Ok (l1 ++ l2) -> raw (happlys l1 t) (S i).
Proof.
  intros G E Es. pose proof (good_raw t i G) as R. destruct (op_next _ _ _ E) as (_ & _ & _ & Na & Pk1 & _).
  assert (R' : forall j x, nth_error (cores t) j = Some x -> hs x = h -> (h = 0 -> st x = INUSE) -> exists k' d', ky x = Some k' /\ dt x = Some d' /\ In (k', d') (after eqb (S i) ops m) /\ P k' /\ hf k' = h).
  { intros j x Hx Hh Hz. destruct (R j x Hx Hh Hz) as (k' & d' & A1 & A2 & A3 & A4 & A5). exists k', d'. split; [exact A1|]. split; [exact A2|]. split; [eapply stays; eauto|auto]. }
  intros j x Hx Hh Hz. rewrite cores_happlys in Hx. destruct (op_form _ _ _ _ _ G E Es) as [X|(y & B & x0 & X & F & Hx0 & Q)]; [apply app_eq_nil in X as [-> _]; apply (R' j x Hx Hh Hz)|].
  assert (W : exists f, cstores l1 (cores t) = upd (cores t) y f /\ (f x0 = x0 \/ match o with HAdd k1 d1 => (hs (f x0) = 0 /\ st (f x0) <> INUSE) \/ (hs (f x0) = hf k1 /\ ky (f x0) = Some k1 /\ dt (f x0) = Some d1) | _ => hs (f x0) <> h end)).
  { destruct o as [k1 d1|k1|k1]; cbn [four_of app] in X.
    all: destruct l1 as [|? l1]; [exists (fun x => x); split; [cbn; clear; generalize (cores t); intros C; revert y; induction C; intros [|y]; cbn; congruence|left; reflexivity]|injection X as -> X].
    all: destruct l1 as [|? l1]; [eexists; split; [cbn [cstores fold_left cstore]; rewrite ?upd_upd; reflexivity|]|injection X as -> X].
    all: try (destruct l1 as [|? l1]; [eexists; split; [cbn [cstores fold_left cstore]; rewrite ?upd_upd; reflexivity|]|injection X as -> X]).
    all: try (destruct l1 as [|? l1]; [eexists; split; [cbn [cstores fold_left cstore]; rewrite ?upd_upd; reflexivity|]|injection X as -> X]).
    all: try (eexists; split; [rewrite four_links by (rewrite <- X in F; eapply Forall_prefix; exact F); cbn [cstores fold_left cstore]; rewrite ?upd_upd; reflexivity|]).
    all: right; unfold st, hs, ky, dt in *; cbn [fst snd] in *; try tauto; try (intuition congruence). }
  destruct W as (f & Ef & Wf). rewrite Ef, nth_error_upd in Hx. destruct (Nat.eqb_spec y j) as [Ej|_]; [|apply (R' j x Hx Hh Hz)]. subst j. rewrite Hx0 in Hx. injection Hx as <-.
  destruct Wf as [Wf|Wf]; [rewrite Wf in *; apply (R' y x0 Hx0 Hh Hz)|]. destruct o as [k1 d1|k1|k1]; [|congruence|congruence]. destruct Wf as [[W1 W2]|(W1 & W2 & W3)]; [exfalso; apply W2; apply Hz; congruence|].
  exists k1, d1. split; [exact W2|]. split; [exact W3|]. split; [rewrite Na; left; reflexivity|]. split; [exact Pk1|congruence].
Qed.
(** *** the writer *)
Inductive phase (w : wstate K D) : Prop :=
| ph_idle : forall i, w_pend w = [] -> w_todo w = skipn i ops -> good (w_table w) i -> phase w
| ph_busy : forall i t o l1, op_stores t o = Ok (l1 ++ w_pend w) -> w_table w = happlys l1 t -> skipn i ops = o :: w_todo w -> w_pend w <> [] -> good t i -> phase w.
Lemma idle_step t i td : td = skipn i ops -> good t i -> exists w', wstep (mkW t [] td) = Ok w' /\ phase w' /\ w_table w' = t /\ (begun ops (mkW t [] td) <= begun ops w')%nat.
Proof.
  intros E G. unfold wstep. cbn [w_table w_pend w_todo]. destruct td as [|o r]; [eexists; split; [reflexivity|]; split; [apply (ph_idle _ i); auto|]; auto|].
  symmetry in E. destruct (op_done _ _ _ _ G E) as (l & Es & G'). rewrite Es. cbn [bind]. eexists. split; [reflexivity|]. split; [|split; [reflexivity|unfold begun; cbn [w_todo length]; lia]]. destruct l as [|s l].
  - apply (ph_idle _ (S i)); cbn [w_table w_pend w_todo]; auto. destruct (op_next _ _ _ E) as (_ & _ & <- & _). reflexivity.
  - apply (ph_busy _ i t o []); cbn [w_table w_pend w_todo app]; auto. discriminate.
Qed.
Lemma phase_step w : phase w -> exists w', wstep w = Ok w' /\ phase w' /\ ev h (cores (w_table w)) (cores (w_table w')) /\ (begun ops w <= begun ops w')%nat.
Proof.
  intros PH. destruct w as [u pd td]. destruct PH as [i A B G|i t o l1 A B E Np G]; cbn [w_table w_pend w_todo] in *.
  - subst pd. destruct (idle_step u i td B G) as (w' & S1 & S2 & S3 & S4). exists w'. split; [exact S1|]. split; [exact S2|]. split; [cbn; rewrite S3; apply ev_refl|exact S4].
  - destruct pd as [|s pd]; [congruence|]. unfold wstep. cbn [w_table w_pend w_todo]. eexists. split; [reflexivity|]. cbn [w_table]. subst u. split; [|split; [eapply op_ev; eauto|unfold begun; cbn [w_todo]; lia]].
    assert (A' : op_stores t o = Ok ((l1 ++ [s]) ++ pd)) by (rewrite <- app_assoc; exact A). destruct pd as [|s2 pd].
    + apply (ph_idle _ (S i)); cbn [w_table w_pend w_todo]; auto; [destruct (op_next _ _ _ E) as (_ & _ & <- & _); reflexivity|]. destruct (op_done _ _ _ _ G E) as (l & Es & G'). rewrite A' in Es. injection Es as <-. rewrite app_nil_r in G'. rewrite happlys_app in G'. exact G'.
    + apply (ph_busy _ i t o (l1 ++ [s])); cbn [w_table w_pend w_todo]; auto; [rewrite happlys_app; reflexivity|discriminate].
Qed.
(** a table that the one in memory has developed from, with the operations finished *)
Lemma phase_base w : phase w -> exists t i, good t i /\ ev h (cores t) (cores (w_table w)) /\ finished ops w = i /\ (i <= begun ops w)%nat /\ raw (w_table w) (begun ops w) /\
  ht_size (w_table w) = N /\ ht_hashfunc (w_table w) = Some hf /\ ht_keycmp (w_table w) = Some cmp.
Proof.
  intros [i A B G|i t o l1 A B E Np G]; unfold finished, begun.
  - exists (w_table w), i. rewrite A, B, skipn_length. pose proof G as (l & c & I & _ & _ & _ & Sz & _ & Li). replace (length ops - (length ops - i))%nat with i by lia.
    split; [exact G|]. split; [apply ev_refl|]. split; [reflexivity|]. split; [lia|]. split; [apply good_raw; exact G|]. split; [exact Sz|]. split; [apply (inv_hf _ _ _ _ _ I)|apply (inv_cmp _ _ _ _ _ I)].
  - exists t, i. destruct (op_next _ _ _ E) as (Li & _ & Nr & _). rewrite <- Nr, skipn_length, B. replace (length ops - (length ops - S i))%nat with (S i) by lia. pose proof G as (l & c & I & _ & _ & _ & Sz & _).
    pose proof (op_plain _ _ _ _ _ G E A) as Pl. apply Forall_app in Pl as [Pl _]. destruct (plain_frame l1 t Pl) as (F1 & F2 & F3). rewrite F1, F2, F3.
    split; [exact G|]. split; [eapply op_evs; eauto|]. split; [destruct (w_pend w); [congruence|lia]|]. split; [lia|]. split; [eapply op_raw; eauto|]. split; [exact Sz|]. split; [apply (inv_hf _ _ _ _ _ I)|apply (inv_cmp _ _ _ _ _ I)].
Qed.
Lemma good_nodup t i : good t i -> NoDup (map fst (after eqb i ops m)).
Proof. intros (l & c & _ & _ & ND & M & _). eapply perm_fst; [apply Permutation_sym; exact M|exact ND]. Qed.
Lemma phase_nodup w : phase w -> NoDup (map fst (after eqb (begun ops w) ops m)).
Proof.
  intros [i A B G|i t o l1 A B E Np G]; unfold begun.
  - rewrite B, skipn_length. pose proof G as (_ & _ & _ & _ & _ & _ & _ & _ & Li). replace (length ops - (length ops - i))%nat with i by lia. eapply good_nodup. exact G.
  - destruct (op_next _ _ _ E) as (Li & _ & Nr & _). rewrite <- Nr, skipn_length. replace (length ops - (length ops - S i))%nat with (S i) by lia. destruct (op_done _ _ _ _ G E) as (l & _ & G'). eapply good_nodup. exact G'.
Qed.

(** *** the reader *)
Definition n0 : nat := Z.to_nat N.
Definition s0 : nat := Z.to_nat (u64 h mod N).
Context (C0 : list (ecore K D)) (i0 : nat) (HN : 0 < N) (L0 : length C0 = n0).
(** at the start: if [k] was there, it was within reach *)
Context (R0 : forall d, aget eqb (after eqb i0 ops m) k = Some d -> exists dr x, (dr < n0)%nat /\ nth_error C0 (slot n0 s0 dr) = Some x /\ st x = INUSE /\ hs x = h /\ ky x = Some k /\
  forall d', (d' < dr)%nat -> exists x', nth_error C0 (slot n0 s0 d') = Some x' /\ st x' <> EMPTY).
Definition nomatch (p : nat) : Prop := forall x, nth_error C0 p = Some x -> st x = INUSE -> hs x = h -> ky x = Some k -> False.
Definition pos (q b : nat) (hv : Z) (j s d : nat) : Prop :=
  hv = h /\ s = s0 /\ (d < n0)%nat /\ j = slot n0 s0 d /\ (forall d', (d' < d)%nat -> nomatch (slot n0 s0 d')) /\ (q <= b + 5 * d)%nat.
Definition rinv (C : list (ecore K D)) (b q : nat) (pc : rpc D) : Prop :=
  match pc with
  | RStart => q = O
  | RStatus hv j s => exists d, pos q 1 hv j s d
  | RHash hv j s => exists d x, pos q 2 hv j s d /\ nth_error C j = Some x /\ (h = 0 -> st x = INUSE)
  | RKey hv j s => exists d x, pos q 3 hv j s d /\ nth_error C j = Some x /\ (h = 0 -> st x = INUSE) /\ hs x = h
  | RAgain hv j s => exists d, pos q 4 hv j s d /\ nomatch j
  | RNext hv j s => exists d, pos q 5 hv j s d /\ nomatch j
  | RData j => exists x, (q <= 5 * n0)%nat /\ nth_error C j = Some x /\ (h = 0 -> st x = INUSE) /\ hs x = h /\ ky x = Some k
  | RDone r => exists x, (i0 <= x <= b)%nat /\ r = aget eqb (after eqb x ops m) k
  end.
Lemma rinv_mono C C' b b' q pc : ev h C C' -> (b <= b')%nat -> rinv C b q pc -> rinv C' b' q pc.
Proof.
  intros E L R. destruct pc; cbn [rinv] in *; auto.
  - destruct R as (d & x & A & B & S). destruct (ev_at _ _ _ _ _ _ _ E B) as (x' & B' & (E1 & E2 & E3)). exists d, x'. split; [exact A|]. split; [exact B'|]. intros Z0. rewrite (E1 (S Z0) (or_intror Z0)). auto.
  - destruct R as (d & x & A & B & S & H). destruct (ev_at _ _ _ _ _ _ _ E B) as (x' & B' & (E1 & E2 & E3)). exists d, x'. split; [exact A|]. split; [exact B'|]. destruct (Z.eq_dec (hf k) 0) as [Z0|Z0]; [rewrite (E1 (S Z0) (or_intror Z0)); auto|]. destruct (E3 H Z0) as (X & _). split; [congruence|exact X].
  - destruct R as (x & A & B & S & H & Hk). destruct (ev_at _ _ _ _ _ _ _ E B) as (x' & B' & (E1 & E2 & E3)). exists x'. split; [exact A|]. split; [exact B'|]. destruct (Z.eq_dec (hf k) 0) as [Z0|Z0]; [rewrite (E1 (S Z0) (or_intror Z0)); auto|]. destruct (E3 H Z0) as (X & Y & _). split; [congruence|]. split; [exact X|congruence].
  - destruct R as (x & A & B). exists x. split; [lia|exact B].
Qed.
Lemma none_at d : (forall d', (d' < d)%nat -> nomatch (slot n0 s0 d')) -> (d = n0 \/ exists x, nth_error C0 (slot n0 s0 d) = Some x /\ st x = EMPTY) -> None = aget eqb (after eqb i0 ops m) k.
Proof.
  intros F End. destruct (aget eqb (after eqb i0 ops m) k) as [dd|]; [|reflexivity]. exfalso. destruct (R0 dd eq_refl) as (dr & x & Hdr & Hx & Su & Hh & Hk & Bef). destruct (Nat.lt_ge_cases dr d) as [L|L]; [apply (F dr L x); auto|].
  destruct End as [->|(x1 & Hx1 & S1)]; [lia|]. destruct (Nat.eq_dec dr d) as [->|Ne]; [congruence|]. destruct (Bef d) as (x2 & Hx2 & S2); [lia|]. congruence.
Qed.
Lemma rstep_ok w q pc : phase w -> ev h C0 (cores (w_table w)) -> (i0 <= begun ops w)%nat -> rinv (cores (w_table w)) (begun ops w) q pc ->
  exists pc', rstep k (w_table w) pc = Ok pc' /\ rinv (cores (w_table w)) (begun ops w) (S q) pc'.
Proof.
  intros PH E Li R. destruct (phase_base _ PH) as (tb & ib & _ & _ & _ & _ & RW & V1 & V2 & V3). pose proof (phase_nodup _ PH) as ND. set (u := w_table w) in *. set (b := begun ops w) in *. clearbody u b. clear PH tb ib.
  assert (Hs : (s0 < n0)%nat) by (unfold s0, n0; pose proof (Z.mod_pos_bound (u64 h) N HN); lia).
  assert (Sl : forall d, (d < n0)%nat -> exists x0 e, nth_error C0 (slot n0 s0 d) = Some x0 /\ nth_error (ht_table u) (slot n0 s0 d) = Some e /\ nth_error (cores u) (slot n0 s0 d) = Some (core e) /\ ev1 h x0 (core e)).
  { intros d Hd. destruct (nth_error_lt_Some C0 (slot n0 s0 d)) as [x0 Hx0]; [rewrite L0; apply slot_lt; auto|]. destruct (ev_at _ _ _ _ _ _ _ E Hx0) as (x & Hx & Ex). destruct (cores_inv _ _ _ Hx) as (e & He & ->). eauto 8. }
  (* an entry that is not in use now, or has another hash value or key, was no match at the start *)
  assert (NM : forall j e, nth_error (cores u) j = Some (core e) -> (he_status e = INUSE -> he_hash e = h -> he_key e = Some k -> False) -> nomatch j).
  { intros j e He H x Hx S1 H1 K1. destruct (ev_at _ _ _ _ _ _ _ E Hx) as (x' & Hx' & (X & _)). rewrite He in Hx'. injection Hx' as <-. specialize (X S1 (or_introl H1)). subst x. apply H; auto. }
  destruct pc; cbn [rinv rstep] in R |- *.
  - subst q. rewrite V2, V1. destruct (Z.eqb_spec N 0); [lia|]. eexists. split; [reflexivity|]. cbn [rinv]. exists O. fold s0. repeat split; try lia. rewrite slot_0 by exact Hs. reflexivity.
  - destruct R as (d & -> & -> & Hd & -> & F & B). destruct (Sl d Hd) as (x0 & e & Hx0 & He & Hc & Ex). rewrite He. eexists. split; [reflexivity|].
    destruct (he_status e) eqn:St; cbn [rinv].
    + exists d. split; [repeat split; auto; lia|]. apply (NM _ _ Hc). congruence.
    + exists d. split; [repeat split; auto; lia|]. apply (NM _ _ Hc). congruence.
    + exists d, (core e). split; [repeat split; auto; lia|]. split; [exact Hc|]. intros _. exact St.
  - destruct R as (d & x1 & (-> & -> & Hd & -> & F & B) & Hx1 & S1). destruct (Sl d Hd) as (x0 & e & Hx0 & He & Hc & Ex). rewrite He. assert (x1 = core e) by congruence. subst x1.
    eexists. split; [reflexivity|]. destruct (Z.eqb_spec (he_hash e) (hf k)) as [Eh|Eh]; cbn [rinv].
    + exists d, (core e). split; [repeat split; auto; lia|]. repeat split; auto.
    + exists d. split; [repeat split; auto; lia|]. apply (NM _ _ Hc). congruence.
  - destruct R as (d & x1 & (-> & -> & Hd & -> & F & B) & Hx1 & S1 & H1). destruct (Sl d Hd) as (x0 & e & Hx0 & He & Hc & Ex). rewrite He. assert (x1 = core e) by congruence. subst x1.
    destruct (RW _ _ Hc H1 S1) as (k1 & d1 & K1 & D1 & _ & P1 & Hh1). change (ky (core e)) with (he_key e) in K1. rewrite V3, K1. eexists. split; [reflexivity|]. destruct (Z.eqb_spec (cmp k1 k) 0) as [Ec|Ec]; cbn [rinv].
    + assert (k1 = k) by (apply (CO k1 k); auto). subst k1. exists (core e). split; [lia|]. repeat split; auto.
    + exists d. split; [repeat split; auto; lia|]. apply (NM _ _ Hc). intros _ _ Kk. rewrite K1 in Kk. injection Kk as ->. apply Ec. apply (CO k k); auto.
  - destruct R as (d & (-> & -> & Hd & -> & F & B) & Nm). destruct (Sl d Hd) as (x0 & e & Hx0 & He & Hc & (_ & Ex & _)). rewrite He. eexists. split; [reflexivity|].
    destruct (he_status e) eqn:St; cbn [rinv]; try (exists d; split; [repeat split; auto; lia|exact Nm]).
    exists i0. split; [lia|]. apply (none_at d); [exact F|]. right. exists x0. split; [exact Hx0|]. destruct (st x0); [reflexivity|exfalso; apply Ex; [discriminate|exact St]|exfalso; apply Ex; [discriminate|exact St]].
  - destruct R as (d & (-> & -> & Hd & -> & F & B) & Nm). rewrite V1. fold n0. eexists. split; [reflexivity|].
    assert (F' : forall d', (d' < S d)%nat -> nomatch (slot n0 s0 d')) by (intros d' L; destruct (Nat.eq_dec d' d) as [->|]; [exact Nm|apply F; lia]).
    destruct (Nat.eq_dec (S d) n0) as [Last|Last].
    + rewrite slot_step_last by auto. rewrite Nat.eqb_refl. cbn [rinv]. exists i0. split; [lia|]. apply (none_at (S d)); [exact F'|left; exact Last].
    + rewrite slot_step by lia. replace (Nat.eqb (slot n0 s0 (S d)) s0) with false by (symmetry; apply Nat.eqb_neq; apply slot_neq_start; lia). cbn [rinv]. exists (S d). repeat split; auto; lia.
  - destruct R as (x1 & B & Hx1 & S1 & H1 & K1). destruct (cores_inv _ _ _ Hx1) as (e & He & ->). rewrite He. destruct (RW _ _ Hx1 H1 S1) as (k1 & d1 & K2 & D2 & In1 & _). rewrite K1 in K2. injection K2 as <-. change (dt (core e)) with (he_data e) in D2. rewrite D2.
    eexists. split; [reflexivity|]. cbn [rinv]. exists b. split; [lia|]. symmetry. apply (aget_In eqb EO); auto.
  - eauto.
Qed.
Lemma rinv_done C b q pc : rinv C b q pc -> (5 * n0 < q)%nat -> exists r, pc = RDone r.
Proof.
  intros R L. destruct pc; cbn [rinv] in R; [lia| | | | | | |eauto]; exfalso.
  1: destruct R as (d & _ & _ & ? & _ & _ & ?); lia.
  1,2: destruct R as (d & e & (_ & _ & ? & _ & _ & ?) & _); lia.
  1,2: destruct R as (d & (_ & _ & ? & _ & _ & ?) & _); lia.
  destruct R as (e & ? & _); lia.
Qed.
Lemma race_ok sched : forall w q pc, phase w -> ev h C0 (cores (w_table w)) -> (i0 <= begun ops w)%nat -> rinv (cores (w_table w)) (begun ops w) q pc ->
  exists w' pc', race k sched w pc = Ok (w', pc') /\ rinv (cores (w_table w')) (begun ops w') (q + reads sched) pc'.
Proof.
  induction sched as [|x sched IH]; intros w q pc PH E L R; cbn [race].
  - exists w, pc. cbn. rewrite Nat.add_0_r. auto.
  - destruct x.
    + destruct (phase_step _ PH) as (w1 & St & PH1 & E1 & L1). rewrite St. cbn [bind]. change (reads (true :: sched)) with (reads sched). apply (IH w1); auto; [eapply ev_trans; eauto|lia|eapply rinv_mono; eauto].
    + destruct (rstep_ok w q pc PH E L R) as (pc1 & St & R1). rewrite St. cbn [bind]. change (reads (false :: sched)) with (S (reads sched)). rewrite Nat.add_succ_r. apply (IH w (S q)); auto.
Qed.
End Fix.

(** *** from a table that satisfies the invariant *)
Lemma race_result K D (P : K -> Prop) hf cmp eqb (t : htable K D) l c m ops before sched k : cmp_ok P hf cmp -> eqb_ok eqb ->
  ht_inv hf cmp t l c -> keys_in P c -> NoDup (map fst c) -> Permutation m c -> blank t -> adds_absent eqb m ops -> Forall (fun o => P (op_key o)) ops ->
  fits eqb (ht_size t) ops m -> P k -> away hf ops k ->
  exists w w' pc, wsteps before (mkW t [] ops) = Ok w /\ race k sched w RStart = Ok (w', pc) /\
    (5 * Z.to_nat (ht_size t) < reads sched -> exists r, pc = RDone r)%nat /\
    (forall r, pc = RDone r -> exists i, (finished ops w <= i <= begun ops w')%nat /\ r = aget eqb (after eqb i ops m) k).
Proof.
  intros CO EO I KI ND M Bl HA HP HF Pk HW. set (N := ht_size t) in *.
  assert (PH : phase P hf cmp eqb ops m N (mkW t [] ops)).
  { apply (ph_idle _ _ _ _ _ _ _ _ O); auto. exists l, c. cbn [w_table]. split; [exact I|]. split; [exact KI|]. split; [exact ND|]. split; [exact M|]. split; [reflexivity|]. split; [exact Bl|lia]. }
  assert (WS : forall n w0, phase P hf cmp eqb ops m N w0 -> exists w, wsteps n w0 = Ok w /\ phase P hf cmp eqb ops m N w).
  { clear -CO EO HA HP HF Pk HW. induction n as [|n IH]; intros w0 PH; cbn [wsteps]; [eauto|]. destruct (phase_step P hf cmp CO eqb EO ops m N HA HP HF k HW w0 PH) as (w1 & St & PH1 & _). rewrite St. cbn [bind]. auto. }
  destruct (WS before _ PH) as (w & Ew & PHw). destruct (phase_base P hf cmp eqb EO ops m N HA HP HF k HW w PHw) as (tb & ib & G & Ev & Fi & Be & _).
  pose proof G as (lb & cb & Ib & Kb & Nb & Mb & Sz & Blb & Lb).
  assert (HN : 0 < N) by (rewrite <- Sz; apply (inv_pos _ _ _ _ _ Ib)). assert (Ln : length (ht_table tb) = Z.to_nat N) by (rewrite <- Sz; symmetry; apply (to_nat_size Ib)).
  assert (L0 : length (cores (w_table w)) = n0 N) by (destruct Ev as [-> _]; rewrite cores_length; exact Ln).
  assert (R0 : forall d, aget eqb (after eqb ib ops m) k = Some d -> exists dr x, (dr < n0 N)%nat /\ nth_error (cores (w_table w)) (slot (n0 N) (s0 hf N k) dr) = Some x /\ st x = INUSE /\ hs x = hf k /\ ky x = Some k /\
    forall d', (d' < dr)%nat -> exists x', nth_error (cores (w_table w)) (slot (n0 N) (s0 hf N k) d') = Some x' /\ st x' <> EMPTY).
  { intros d Hd. apply (aget_Some eqb EO) in Hd. apply (Permutation_in _ Mb) in Hd. destruct (Forall2_In_r _ _ _ _ (inv_cont _ _ _ _ _ Ib) Hd) as (j & Hj & e & He & Su & Hk & _). cbn [fst] in Hk.
    destruct (inv_entry _ _ _ _ _ Ib _ _ _ He Su Hk) as (Hh & dr & Hdr & -> & Bef). unfold start in *. rewrite Sz, Ln in *. fold (n0 N) in *. fold (s0 hf N k) in *. exists dr.
    destruct (ev_at _ _ _ _ _ _ _ Ev (cores_nth _ _ _ He)) as (x & Hx & (E1 & _)). rewrite (E1 Su (or_introl Hh)) in Hx. exists (core e). split; [exact Hdr|]. split; [exact Hx|]. split; [exact Su|]. split; [exact Hh|]. split; [exact Hk|].
    intros d' Hd'. destruct (Bef d' Hd') as (e' & He' & S'). destruct (ev_at _ _ _ _ _ _ _ Ev (cores_nth _ _ _ He')) as (x' & Hx' & (_ & E2 & _)). exists x'. split; [exact Hx'|]. apply E2. exact S'. }
  destruct (race_ok P hf cmp CO eqb EO ops m N HA HP HF k Pk HW (cores (w_table w)) ib HN L0 R0 sched w O RStart PHw (ev_refl _ _) Be eq_refl) as (w' & pc & Er & R). exists w, w', pc.
  split; [exact Ew|]. split; [exact Er|]. split.
  - intros L. eapply (rinv_done _ _ _ _ _ _ _ _ L0 _ _ _ _ R). exact L.
  - intros r ->. cbn [rinv] in R. destruct R as (x & Lx & ->). exists x. split; [lia|reflexivity].
Qed.
