(** The record of libraries under add_library and remove_library. *)
From Verif Require Import Base ListFacts HashModel HashProofs SpecHash HashTrace ElfModel ToolModel CoreModel SpecCore SpecRun SpecSync SpecReg LibListModel
  ToolProofs CoreMaps CoreRel CoreLib CoreStep CoreWrap CoreLoop CoreMain CoreSync.

(** segments of the list *)
Inductive dseg (h : list library) : option nat -> option nat -> list nat -> option nat -> option nat -> Prop :=
| dseg_nil b p : dseg h b p [] b p
| dseg_cons b i x l b' p' : nth_error h i = Some x -> lb_prev x = b -> dseg h (Some i) (lb_next x) l b' p' -> dseg h b (Some i) (i :: l) b' p'.
Lemma dll_split h l1 : forall l2 b p, dll h b p (l1 ++ l2) -> exists b' p', dseg h b p l1 b' p' /\ dll h b' p' l2.
Proof.
  induction l1 as [|i l1 IH]; intros l2 b p D; cbn in D; [exists b, p; split; [constructor|auto]|]. inversion D as [|? ? x ? H1 H2 H3]; subst. destruct (IH _ _ _ H3) as (b' & p' & A & B).
  exists b', p'. split; [econstructor; eauto|auto].
Qed.
Lemma dll_join h l1 l2 b p b' p' : dseg h b p l1 b' p' -> dll h b' p' l2 -> dll h b p (l1 ++ l2).
Proof. induction 1; intros D; cbn; [auto|]. econstructor; eauto. Qed.
(** [h'] has the same links as [h] on [l] *)
Definition agree (h h' : list library) (l : list nat) : Prop :=
  forall i x, In i l -> nth_error h i = Some x -> exists y, nth_error h' i = Some y /\ lb_next y = lb_next x /\ lb_prev y = lb_prev x.
Lemma dseg_frame h h' b p l b' p' : dseg h b p l b' p' -> agree h h' l -> dseg h' b p l b' p'.
Proof.
  induction 1 as [|b i x l b' p' H1 H2 H3 IH]; intros A; [constructor|]. destruct (A i x (or_introl eq_refl) H1) as (y & Y1 & Y2 & Y3). econstructor; [exact Y1|congruence|]. rewrite Y2. apply IH.
  intros j z Hj. apply A. right. auto.
Qed.
Lemma dll_frame h h' b p l : dll h b p l -> agree h h' l -> dll h' b p l.
Proof.
  induction 1 as [|b i x l H1 H2 H3 IH]; intros A; [constructor|]. destruct (A i x (or_introl eq_refl) H1) as (y & Y1 & Y2 & Y3). econstructor; [exact Y1|congruence|]. rewrite Y2. apply IH.
  intros j z Hj. apply A. right. auto.
Qed.
Lemma agree_upd h i f l : ~ In i l -> agree h (upd h i f) l.
Proof. intros N j x Hj H. exists x. split; [|auto]. rewrite nth_error_upd. destruct (Nat.eqb i j) eqn:Q; [|auto]. apply Nat.eqb_eq in Q. subst. contradiction. Qed.
Lemma agree_trans h1 h2 h3 l : agree h1 h2 l -> agree h2 h3 l -> agree h1 h3 l.
Proof. intros A B i x Hi H. destruct (A i x Hi H) as (y & Y1 & Y2 & Y3). destruct (B i y Hi Y1) as (z & Z1 & Z2 & Z3). exists z. split; [auto|]. split; congruence. Qed.
Lemma nth_upd_same {A} (h : list A) i f x : nth_error h i = Some x -> nth_error (upd h i f) i = Some (f x).
Proof. intros H. rewrite nth_error_upd, Nat.eqb_refl, H. auto. Qed.
Lemma nth_upd_other {A} (h : list A) i j f : i <> j -> nth_error (upd h i f) j = nth_error h j.
Proof. intros H. rewrite nth_error_upd. destruct (Nat.eqb i j) eqn:Q; [apply Nat.eqb_eq in Q; contradiction|auto]. Qed.
Lemma dll_in h b p l i : dll h b p l -> In i l -> exists x, nth_error h i = Some x.
Proof. induction 1; intros [<-|Hi] || intros []; eauto. Qed.

(** removing [i] from the list *)
Definition unlink1 (h : list library) (lib : library) : list library := match lb_prev lib with Some p => upd h p (set_lnext (lb_next lib)) | None => h end.
Definition unlink2 (h : list library) (lib : library) : list library := match lb_next lib with Some n => upd h n (set_lprev (lb_prev lib)) | None => h end.
Lemma dll_last h l1 p0 : forall b p b' p', dseg h b p (l1 ++ [p0]) b' p' -> exists b0 x, dseg h b p l1 b0 (Some p0) /\ nth_error h p0 = Some x /\ lb_prev x = b0 /\ b' = Some p0 /\ p' = lb_next x.
Proof.
  induction l1 as [|i l1 IH]; intros b p b' p' D; cbn in D; inversion D as [|? ? x ? ? ? H1 H2 H3]; subst.
  - inversion H3; subst. exists (lb_prev x), x. split; [constructor|]. auto.
  - destruct (IH _ _ _ _ H3) as (b0 & y & A & B & C & E & F). exists b0, y. split; [econstructor; eauto|auto].
Qed.
Lemma dseg_snoc h b p l b0 j y : dseg h b p l b0 (Some j) -> nth_error h j = Some y -> lb_prev y = b0 -> dseg h b p (l ++ [j]) (Some j) (lb_next y).
Proof.
  intros S. remember (Some j) as q eqn:Q. revert Q. induction S as [b p|b i x l b' p' H1 H2 H3 IH]; intros Q Y P; cbn.
  - rewrite Q. econstructor; eauto. constructor.
  - econstructor; eauto.
Qed.
Lemma unlink h hd l1 i l2 lib : dll h None hd (l1 ++ i :: l2) -> NoDup (l1 ++ i :: l2) -> nth_error h i = Some lib ->
  (forall p, lb_prev lib = Some p -> In p l1) /\ (forall n, lb_next lib = Some n -> In n l2) /\ nth_error (unlink2 (unlink1 h lib) lib) i = Some lib /\
  hd = hd_error (l1 ++ i :: l2) /\
  dll (upd (unlink2 (unlink1 h lib) lib) i (fun _ => mkLibr 0 None None 0 false)) None (if Nat.eqb (match hd with Some j => j | None => 0 end) i then lb_next lib else hd) (l1 ++ l2).
Proof.
  intros D ND Hi. destruct (dll_split _ _ _ _ _ D) as (b' & p' & S & D2). inversion D2 as [|? ? x ? H1 H2 H3]; subst. assert (x = lib) by congruence. subst x. clear H1.
  pose proof (NoDup_remove_2 _ _ _ ND) as N2. pose proof (NoDup_remove_1 _ _ _ ND) as N1.
  assert (Ni1 : ~ In i l1) by (intros H; apply N2; apply in_or_app; auto). assert (Ni2 : ~ In i l2) by (intros H; apply N2; apply in_or_app; auto).
  assert (Dis : forall j, In j l1 -> ~ In j l2).
  { intros j A B. apply in_split in A. destruct A as (a & c & ->). rewrite <- app_assoc in N1. cbn in N1. apply NoDup_remove_2 in N1. apply N1. apply in_or_app. right. apply in_or_app. auto. }
  assert (Hd : hd = hd_error (l1 ++ i :: l2)) by (destruct l1 as [|j l1]; cbn in D |- *; inversion D; subst; auto).
  assert (Pn : forall n, lb_next lib = Some n -> In n l2). { intros n En. rewrite En in H3. inversion H3; subst. left. auto. }
  assert (Pp : forall p, lb_prev lib = Some p -> In p l1).
  { intros p Ep. destruct l1 as [|j l1 _] using rev_ind; [inversion S; subst; congruence|]. destruct (dll_last _ _ _ _ _ _ _ S) as (b0 & y & _ & _ & _ & E & _). rewrite Ep in E. injection E as <-. apply in_or_app. right. left. auto. }
  split; [auto|]. split; [auto|].
  set (h1 := unlink1 h lib). set (h2 := unlink2 h1 lib).
  assert (A1 : agree h h1 l2). { unfold h1, unlink1. destruct (lb_prev lib) as [p|] eqn:E; [|intros j x _ Hj; exists x; auto]. apply agree_upd. apply Dis. auto. }
  assert (K1 : nth_error h1 i = Some lib). { unfold h1, unlink1. destruct (lb_prev lib) as [p|] eqn:E; [|auto]. rewrite nth_upd_other; [auto|]. intros ->. apply Ni1. auto. }
  assert (K2 : nth_error h2 i = Some lib). { unfold h2, unlink2. destruct (lb_next lib) as [n|] eqn:E; [|auto]. rewrite nth_upd_other; [auto|]. intros ->. apply Ni2. auto. }
  split; [auto|]. split; [auto|].
  assert (A2 : agree h1 h2 l1). { unfold h2, unlink2. destruct (lb_next lib) as [n|] eqn:E; [|intros j x _ Hj; exists x; auto]. apply agree_upd. intros H. apply (Dis n H). auto. }
  assert (A3 : forall l, ~ In i l -> agree h2 (upd h2 i (fun _ => mkLibr 0 None None 0 false)) l) by (intros l Nl; apply agree_upd; auto).
  (* the part after i *)
  assert (T : dll h2 (lb_prev lib) (lb_next lib) l2).
  { pose proof (dll_frame _ _ _ _ _ H3 A1) as T1. unfold h2, unlink2. destruct (lb_next lib) as [n|] eqn:En; [|inversion T1; subst; constructor].
    inversion T1 as [|? ? y l3 Y1 Y2 Y3]; subst. econstructor; [apply nth_upd_same; exact Y1|reflexivity|]. cbn [lb_next set_lprev]. eapply dll_frame; [exact Y3|]. apply agree_upd.
    assert (NoDup (n :: l3)) as X. { clear - N1. revert N1. generalize (n :: l3). intros l. induction l1; cbn; [auto|]. intros H. inversion H; auto. }
    inversion X; auto. }
  (* the part before i *)
  destruct l1 as [|j l1 _] using rev_ind.
  - inversion S; subst. cbn [app hd_error]. rewrite Nat.eqb_refl. cbn [app]. eapply dll_frame; [|apply A3; auto]. replace None with (lb_prev lib) by auto. exact T.
  - destruct (dll_last _ _ _ _ _ _ _ S) as (b0 & y & S1 & Y1 & Y2 & E1 & E2). rewrite Hd.
    assert (Hne : Nat.eqb (match hd_error ((l1 ++ [j]) ++ i :: l2) with Some k => k | None => 0%nat end) i = false).
    { apply Nat.eqb_neq. intros E. apply Ni1. destruct l1 as [|k l1]; cbn in E |- *; [left; auto|left; auto]. }
    rewrite Hne. replace (hd_error ((l1 ++ [j]) ++ i :: l2)) with hd. eapply dll_join; [|eapply dll_frame; [exact T|apply A3; auto]].
    eapply dseg_frame; [|apply A3; auto]. eapply dseg_frame; [|exact A2]. unfold h1, unlink1. rewrite E1.
    assert (Nj : ~ In j l1). { rewrite <- app_assoc in N1. cbn in N1. apply NoDup_remove_2 in N1. intros H. apply N1. apply in_or_app. auto. }
    change (lb_next lib) with (lb_next (set_lnext (lb_next lib) y)) at 2. eapply dseg_snoc; [eapply dseg_frame; [exact S1|apply agree_upd; auto]|apply nth_upd_same; auto|cbn; auto].
Qed.

Lemma F2_impl {A B} (P Q : A -> B -> Prop) l k : (forall a b, P a b -> Q a b) -> Forall2 P l k -> Forall2 Q l k.
Proof. intros H. induction 1; constructor; auto. Qed.
Section LibOps.
Context (all : list lmap) (HND : apart all).
Notation lkm := (kmap (lkeys all) link_map_hash link_map_cmp lkey_eqb).
Definition rec_of (h : list library) (i : nat) (k : lkey) : Prop := exists lb, nth_error h i = Some lb /\ lb_map lb = fst k.
Record libs (l : lstate) (ks : list lkey) (idx : list nat) : Prop := {
  li_dll : dll (l_heap l) None (l_list l) idx;
  li_nd : NoDup idx;
  li_ks : NoDup ks;
  li_rec : Forall2 (rec_of (l_heap l)) idx ks;
  li_map : exists f, lkm (l_table l) f /\ forall k i, f k = Some i <-> exists n, nth_error ks n = Some k /\ nth_error idx n = Some i }.

Lemma libs_get l ks idx m : libs l ks idx -> In m all ->
  match get_library l m with Ok (Some i) => exists n, nth_error ks n = Some (key_of m) /\ nth_error idx n = Some i | Ok None => ~ In (key_of m) ks | Fault _ => False end.
Proof.
  intros [D N K R (f & F1 & F2)] Hm. unfold get_library. rewrite (kmap_lookup _ _ _ (lcmp_ok all HND) _ lkey_eqb_ok _ _ _ F1 (lkeys_of all m Hm)).
  destruct (f (key_of m)) as [i|] eqn:E; [apply F2; auto|]. intros H. apply In_nth_error in H. destruct H as [n Hn].
  destruct (nth_error idx n) as [i|] eqn:Ei. { assert (f (key_of m) = Some i) by (apply F2; eauto). congruence. }
  apply nth_error_None in Ei. rewrite (Forall2_length _ _ _ R) in Ei. apply nth_error_Some_lt in Hn. lia.
Qed.
Lemma libs_track l ks idx m : libs l ks idx -> In m all ->
  exists l' idx' i, track_library l m = Ok (l', i) /\ libs l' (if existsb (same_lib (key_of m)) ks then ks else key_of m :: ks) idx'.
Proof.
  intros L Hm. pose proof (libs_get l ks idx m L Hm) as G. unfold track_library. destruct (get_library l m) as [[i|]|] eqn:Eg; [| |contradiction]; cbn [bind].
  - destruct G as (n & G1 & G2). exists l, idx, i. split; [auto|]. replace (existsb _ ks) with true; [auto|]. symmetry. apply existsb_exists. exists (key_of m). split; [eapply nth_error_In; eauto|apply lkey_eqb_ok; auto].
  - destruct L as [D N K R (f & F1 & F2)]. assert (Ef : f (key_of m) = None).
    { destruct (f (key_of m)) eqn:E; [|auto]. apply F2 in E. destruct E as (k & E & _). apply nth_error_In in E. contradiction. }
    replace (existsb _ ks) with false.
    2:{ symmetry. destruct (existsb _ ks) eqn:E; [|auto]. apply existsb_exists in E. destruct E as (k & E1 & E2). apply lkey_eqb_ok in E2. subst. contradiction. }
    unfold add_library. destruct (kmap_add _ _ _ (lcmp_ok all HND) _ lkey_eqb_ok _ _ (key_of m) (length (l_heap l)) F1 (lkeys_of all m Hm) Ef) as (t & Et & Lt).
    rewrite Et. cbn [bind]. set (h1 := match l_list l with Some h => upd (l_heap l) h (set_lprev (Some (length (l_heap l)))) | None => l_heap l end).
    exists (mkLS t (h1 ++ [mkLibr (lm_ptr m) (l_list l) None 0 false]) (Some (length (l_heap l))) (l_gen l)), (length (l_heap l) :: idx), (length (l_heap l)). split; [auto|].
    assert (Len : length h1 = length (l_heap l)) by (unfold h1; destruct (l_list l); [apply upd_length|auto]).
    assert (Old : forall i, In i idx -> (i < length (l_heap l))%nat) by (intros i Hi; destruct (dll_in _ _ _ _ _ D Hi) as [x Hx]; eapply nth_error_Some_lt; eauto).
    assert (New : nth_error (h1 ++ [mkLibr (lm_ptr m) (l_list l) None 0 false]) (length (l_heap l)) = Some (mkLibr (lm_ptr m) (l_list l) None 0 false)).
    { rewrite nth_error_app2 by lia. rewrite Len, Nat.sub_diag. auto. }
    assert (Hk : forall k, kupd lkey_eqb f (key_of m) (Some (length (l_heap l))) k = if lkey_eqb k (key_of m) then Some (length (l_heap l)) else f k) by reflexivity.
    constructor; cbn [l_heap l_list l_table].
    + econstructor; [exact New|auto|]. cbn [lb_next]. unfold h1. inversion D as [b E1 E2|b i x idx1 X1 X2 X3 E1 E2]; subst; [constructor|].
      cbn in N. inversion N as [|? ? N1 N2]; subst.
      econstructor; [rewrite nth_error_app1 by (rewrite upd_length; eapply nth_error_Some_lt; eauto); apply nth_upd_same; exact X1|auto|]. cbn [lb_next set_lprev]. eapply dll_frame; [exact X3|].
      intros j y Hj Y. exists y. split; [|auto]. rewrite nth_error_app1 by (rewrite upd_length; eapply nth_error_Some_lt; eauto). rewrite nth_upd_other; [auto|]. intros ->. contradiction.
    + constructor; [|auto]. intros H. apply Old in H. lia.
    + constructor; auto.
    + constructor; [exists (mkLibr (lm_ptr m) (l_list l) None 0 false); auto|]. clear - R Len. eapply F2_impl; [|exact R]. intros i k (lb & A & B).
      assert (X : exists lb', nth_error h1 i = Some lb' /\ lb_map lb' = lb_map lb).
      { unfold h1. destruct (l_list l) as [j|]; [|eauto]. rewrite nth_error_upd. destruct (Nat.eqb j i); [rewrite A; eexists; split; reflexivity|eauto]. }
      destruct X as (lb' & X1 & X2). exists lb'. split; [|congruence]. rewrite nth_error_app1; [auto|eapply nth_error_Some_lt; eauto].
    + eexists. split; [exact Lt|]. intros k i. rewrite Hk. destruct (lkey_eqb k (key_of m)) eqn:E.
      * apply lkey_eqb_ok in E. subst k. split; [intros H; injection H as <-; exists O; auto|]. intros (n & A & B). destruct n as [|n]; [cbn in B; congruence|]. cbn in A. apply nth_error_In in A. contradiction.
      * rewrite F2. split; [intros (n & A & B); exists (S n); auto|]. intros (n & A & B). destruct n as [|n]; [|eauto]. cbn in A. injection A as <-. rewrite (proj2 (lkey_eqb_ok _ _) eq_refl) in E. discriminate.
Qed.
Lemma filter_out (k : lkey) k1 k2 : NoDup (k1 ++ k :: k2) -> filter (fun x => negb (same_lib x k)) (k1 ++ k :: k2) = k1 ++ k2.
Proof.
  intros N. pose proof (NoDup_remove_2 _ _ _ N) as H.
  assert (A : forall l, ~ In k l -> filter (fun x => negb (same_lib x k)) l = l).
  { induction l as [|x l IH]; intros Hl; cbn; [auto|]. destruct (same_lib x k) eqn:E; cbn.
    - exfalso. apply Hl. left. apply lkey_eqb_ok in E. auto.
    - rewrite IH; [auto|]. intros X. apply Hl. right. auto. }
  rewrite filter_app, A by (intros X; apply H; apply in_or_app; auto). cbn. replace (same_lib k k) with true by (symmetry; apply lkey_eqb_ok; auto). cbn.
  rewrite A by (intros X; apply H; apply in_or_app; auto). auto.
Qed.
Lemma filter_none (k : lkey) ks : ~ In k ks -> filter (fun x => negb (same_lib x k)) ks = ks.
Proof.
  induction ks as [|x l IH]; intros Hl; cbn; [auto|]. destruct (same_lib x k) eqn:E; cbn.
  - exfalso. apply Hl. left. apply lkey_eqb_ok in E. auto.
  - rewrite IH; [auto|]. intros X. apply Hl. right. auto.
Qed.
Lemma Forall2_mid {A B} (R : A -> B -> Prop) l1 a l2 : forall k1 b k2, length l1 = length k1 -> Forall2 R (l1 ++ a :: l2) (k1 ++ b :: k2) -> Forall2 R (l1 ++ l2) (k1 ++ k2) /\ R a b.
Proof.
  induction l1 as [|x l1 IH]; intros [|y k1] b k2 E F; cbn in *; try discriminate; inversion F; subst; [auto|]. injection E as E. destruct (IH _ _ _ E H4). split; [constructor; auto|auto].
Qed.
Lemma nth_mid {A B} (l1 : list A) a l2 (k1 : list B) b k2 x y : length l1 = length k1 ->
  ((exists n, nth_error (l1 ++ l2) n = Some x /\ nth_error (k1 ++ k2) n = Some y) -> exists n, nth_error (l1 ++ a :: l2) n = Some x /\ nth_error (k1 ++ b :: k2) n = Some y) /\
  (x <> a -> (exists n, nth_error (l1 ++ a :: l2) n = Some x /\ nth_error (k1 ++ b :: k2) n = Some y) -> exists n, nth_error (l1 ++ l2) n = Some x /\ nth_error (k1 ++ k2) n = Some y).
Proof.
  revert k1. induction l1 as [|z l1 IH]; intros [|w k1] E; cbn in E; try discriminate; cbn [app].
  - split; [intros (n & H); exists (S n); exact H|]. intros Hx ([|n] & H1 & H2); [cbn in H1; congruence|exists n; auto].
  - injection E as E. destruct (IH k1 E) as [P Q]. split.
    + intros ([|n] & H1 & H2); [exists O; auto|]. destruct P as (n' & P'); [exists n; auto|]. exists (S n'). auto.
    + intros Hx ([|n] & H1 & H2); [exists O; auto|]. destruct (Q Hx) as (n' & P'); [exists n; auto|]. exists (S n'). auto.
Qed.
Lemma libs_remove l ks idx m : libs l ks idx -> In m all ->
  exists l' idx', remove_library l m = Ok l' /\ libs l' (filter (fun k => negb (same_lib k (key_of m))) ks) idx'.
Proof.
  intros L Hm. pose proof (libs_get l ks idx m L Hm) as G. unfold remove_library. destruct (get_library l m) as [[i|]|] eqn:Eg; [| |contradiction]; cbn [bind].
  2:{ exists l, idx. split; [auto|]. rewrite filter_none; auto. }
  destruct G as (n & G1 & G2).
  destruct L as [D N K R (f & F1 & F2)].
  destruct (nth_error_split _ _ G2) as (l1 & l2 & -> & Hl1). destruct (nth_error_split _ _ G1) as (k1 & k2 & -> & Hk1). assert (E12 : length l1 = length k1) by congruence.
  rewrite filter_out by auto.
  assert (Fi : f (key_of m) = Some i) by (apply F2; eauto).
  destruct (dll_in _ _ _ _ i D ltac:(apply in_or_app; right; left; auto)) as [lib Hi].
  destruct (unlink _ _ _ _ _ _ D N Hi) as (U1 & U2 & U3 & U4 & U5).
  assert (Rd : forall h j, agree (l_heap l) h [j] -> In j (l1 ++ i :: l2) -> exists x, deref h j = Ok x).
  { intros h j A Hj. destruct (dll_in _ _ _ _ _ D Hj) as [x Hx]. destruct (A j x (or_introl eq_refl) Hx) as (y & Y & _). exists y. unfold deref. rewrite Y. auto. }
  assert (Len1 : forall j, nth_error (l_heap l) j <> None -> nth_error (unlink1 (l_heap l) lib) j <> None).
  { intros j Hj. unfold unlink1. destruct (lb_prev lib) as [p|]; [|auto]. rewrite nth_error_upd. destruct (Nat.eqb p j); [destruct (nth_error (l_heap l) j); [discriminate|contradiction]|auto]. }
  unfold deref. rewrite Hi. cbn [bind].
  replace (match lb_prev lib with Some p => do _ <- match nth_error (l_heap l) p with Some x => Ok x | None => Fault NullDeref end; Ok (upd (l_heap l) p (set_lnext (lb_next lib))) | None => Ok (l_heap l) end) with (Ok (unlink1 (l_heap l) lib)).
  2:{ unfold unlink1. destruct (lb_prev lib) as [p|] eqn:Ep; [|auto]. destruct (dll_in _ _ _ _ p D ltac:(apply in_or_app; left; auto)) as [x Hx]. rewrite Hx. auto. }
  cbn [bind]. assert (Hi1 : nth_error (unlink1 (l_heap l) lib) i = Some lib).
  { unfold unlink1. destruct (lb_prev lib) as [p|] eqn:Ep; [|auto]. rewrite nth_upd_other; [auto|]. intros ->. apply NoDup_remove_2 in N. apply N. apply in_or_app. left. apply U1. auto. }
  rewrite Hi1. cbn [bind].
  replace (match lb_next lib with Some p => do _ <- match nth_error (unlink1 (l_heap l) lib) p with Some x => Ok x | None => Fault NullDeref end; Ok (upd (unlink1 (l_heap l) lib) p (set_lprev (lb_prev lib))) | None => Ok (unlink1 (l_heap l) lib) end) with (Ok (unlink2 (unlink1 (l_heap l) lib) lib)).
  2:{ unfold unlink2. destruct (lb_next lib) as [p|] eqn:Ep; [|auto]. destruct (dll_in _ _ _ _ p D ltac:(apply in_or_app; right; right; auto)) as [x Hx].
      destruct (nth_error (unlink1 (l_heap l) lib) p) eqn:Q; [auto|]. exfalso. apply (Len1 p); [rewrite Hx; discriminate|auto]. }
  cbn [bind].
  assert (Hh : exists hd, l_list l = Some hd). { rewrite U4. destruct l1; cbn; eauto. } destruct Hh as [hd Ehd]. rewrite Ehd in *.
  replace (if Nat.eqb hd i then do x <- match nth_error (unlink2 (unlink1 (l_heap l) lib) lib) hd with Some x => Ok x | None => Fault NullDeref end; Ok (lb_next x) else Ok (Some hd))
    with (Ok (if Nat.eqb hd i then lb_next lib else Some hd)).
  2:{ destruct (Nat.eqb hd i) eqn:Q; [|auto]. apply Nat.eqb_eq in Q. subst hd. rewrite U3. auto. }
  cbn [bind].
  destruct (kmap_remove _ _ _ (lcmp_ok all HND) _ lkey_eqb_ok _ _ (key_of m) F1 (lkeys_of all m Hm)) as (t' & Et & Lt). rewrite Et. cbn [bind].
  eexists _, (l1 ++ l2). split; [reflexivity|].
  assert (Hk : forall k, kupd lkey_eqb f (key_of m) None k = if lkey_eqb k (key_of m) then None else f k) by reflexivity.
  constructor; cbn [l_heap l_list l_table].
  - exact U5.
  - eapply NoDup_remove_1; eauto.
  - eapply NoDup_remove_1; eauto.
  - destruct (Forall2_mid _ _ _ _ _ _ _ E12 R) as [R1 _].
    assert (Hr : forall j k, In j (l1 ++ l2) -> rec_of (l_heap l) j k -> rec_of (upd (unlink2 (unlink1 (l_heap l) lib) lib) i (fun _ => mkLibr 0 None None 0 false)) j k).
    { intros j k Hj (lb & A & B). assert (Nij : i <> j) by (intros ->; apply NoDup_remove_2 in N; contradiction). unfold rec_of. rewrite nth_upd_other by auto.
      assert (X1 : exists y, nth_error (unlink1 (l_heap l) lib) j = Some y /\ lb_map y = lb_map lb).
      { unfold unlink1. destruct (lb_prev lib) as [p|]; [|eauto]. rewrite nth_error_upd. destruct (Nat.eqb p j); [rewrite A; eexists; split; reflexivity|eauto]. }
      destruct X1 as (y & Y1 & Y2). unfold unlink2. destruct (lb_next lib) as [p|]; [|exists y; split; [auto|congruence]]. rewrite nth_error_upd. destruct (Nat.eqb p j); [rewrite Y1; eexists; split; [reflexivity|cbn; congruence]|exists y; split; [auto|congruence]]. }
    clear - R1 Hr. revert R1 Hr. generalize (k1 ++ k2). generalize (l1 ++ l2). intros l0. generalize (upd (unlink2 (unlink1 (l_heap l) lib) lib) i (fun _ => mkLibr 0 None None 0 false)). intros h' ks R1.
    induction R1 as [|j k l0 ks R0 R1 IH]; intros Hr; constructor; [apply Hr; [left; auto|auto]|]. apply IH. intros j' k' H'. apply Hr. right. auto.
  - eexists. split; [exact Lt|]. intros k j. rewrite Hk. destruct (lkey_eqb k (key_of m)) eqn:E.
    + apply lkey_eqb_ok in E. subst k. split; [discriminate|]. intros (q & A & B). apply nth_error_In in A. exfalso. apply NoDup_remove_2 in K. contradiction.
    + rewrite F2. destruct (nth_mid k1 (key_of m) k2 l1 i l2 k j (eq_sym E12)) as [P Q]. split; [|exact P]. apply Q. intros ->. rewrite (proj2 (lkey_eqb_ok _ _) eq_refl) in E. discriminate.
Qed.

Definition op_lib (o : libop) : lmap := match o with LTrack m => m | LRemove m => m end.
Lemma lib_run_libs ops : (forall o, In o ops -> In (op_lib o) all) -> forall l ks idx, libs l ks idx ->
  exists l' idx', lib_run l ops = Ok l' /\ libs l' (fold_left lib_track_spec ops ks) idx'.
Proof.
  induction ops as [|o ops IH]; intros Ho l ks idx L; cbn [lib_run fold_left]; [eauto|].
  assert (X : exists l1 idx1, lib_step l o = Ok l1 /\ libs l1 (lib_track_spec ks o) idx1).
  { pose proof (Ho o (or_introl eq_refl)) as Hm. destruct o as [m|m]; cbn [lib_step lib_track_spec op_lib] in *.
    - destruct (libs_track _ _ _ _ L Hm) as (l1 & idx1 & i & E & L1). rewrite E. cbn. eauto.
    - destruct (libs_remove _ _ _ _ L Hm) as (l1 & idx1 & E & L1). rewrite E. eauto. }
  destruct X as (l1 & idx1 & E & L1). rewrite E. cbn [bind]. eapply IH; eauto. intros o' H. apply Ho. right. auto.
Qed.
Lemma lib_ops_thm ps ops : 48 <= ps -> (forall o, In o ops -> In (op_lib o) all) ->
  exists l0 l idx, lib_setup ps = Ok l0 /\ lib_run l0 ops = Ok l /\ dll (l_heap l) None (l_list l) idx /\ NoDup idx /\ NoDup (lib_tracked ops) /\
    map (fun i => option_map lb_map (nth_error (l_heap l) i)) idx = map (fun k => Some (fst k)) (lib_tracked ops) /\
    forall m, In m all -> exists r, get_library l m = Ok r /\
      match r with Some i => exists n, nth_error (lib_tracked ops) n = Some (key_of m) /\ nth_error idx n = Some i | None => ~ In (key_of m) (lib_tracked ops) end.
Proof.
  intros Hps Ho. unfold lib_setup. destruct (kmap_create (D:=nat) (lkeys all) link_map_hash link_map_cmp lkey_eqb ps 128 Hps ltac:(lia)) as (t & Et & Lt). rewrite Et. cbn [bind].
  destruct (lib_run_libs ops Ho (mkLS t [] None 0) [] []) as (l & idx & E & L).
  { constructor; cbn; try constructor. exists (fun _ => None). split; [exact Lt|]. intros k i. split; [discriminate|]. intros ([|n] & A & _); discriminate. }
  eexists _, l, idx. split; [reflexivity|]. split; [exact E|]. pose proof L as [D N K R _]. split; [auto|]. split; [auto|]. split; [exact K|]. split.
  - fold (lib_tracked ops) in R. clear - R. induction R as [|i k a b (lb & H1 & H2) R IH]; cbn; [auto|]. rewrite H1. cbn. rewrite IH. congruence.
  - intros m Hm. pose proof (libs_get _ _ _ m L Hm) as G. destruct (get_library l m) as [r|]; [|contradiction]. exists r. split; [auto|]. destruct r; auto.
Qed.
End LibOps.
