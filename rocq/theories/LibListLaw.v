(** The record of libraries under add_library and remove_library, for arbitrary hash values. *)
From Verif Require Import Base ListFacts HashModel HashProofs SpecHash HashTrace ElfModel ToolModel CoreModel SpecCore SpecRun SpecSync SpecReg LibListModel
  ToolProofs CoreMaps CoreRel CoreLib LibListProofs.
From Coq Require Import Permutation.

(** removefrom_hashtable removes the entry that lookup_hashtable finds *)
Lemma inuse_in {K D} {hf cmp} (t : htable K D) l c i e : ht_inv hf cmp t l c -> In i l -> nth_error (ht_table t) i = Some e -> he_status e = INUSE.
Proof. intros I Hi He. destruct (inv_in_l I _ Hi) as (kd & _ & e' & He' & Hs & _). congruence. Qed.
Lemma remove_data {K D} {hf cmp} (t : htable K D) l c k d0 : ht_inv hf cmp t l c -> lookup_hashtable t k = Ok (Some d0) ->
  exists t' l1 i l2 c1 k' c2, removefrom_hashtable t k = Ok (t', true) /\ l = l1 ++ i :: l2 /\ c = c1 ++ (k', d0) :: c2 /\ match_key hf cmp k' k /\
    ht_inv hf cmp t' (l1 ++ l2) (c1 ++ c2).
Proof.
  intros I L. unfold lookup_hashtable in L.
  destruct (lookup_spec t l c k I) as [(i0 & e0 & k0 & dt & HL & He & Hs & Hk & Hd & _)|[HL _]]; rewrite HL in L; cbn [bind] in L; [|discriminate].
  rewrite He, Hd in L. injection L as ->.
  destruct (remove_spec t l c k I) as [(t' & l1 & i & l2 & c1 & k' & d & c2 & e & R & El & Ec & Len & M & I' & _ & _ & _)|[R _]].
  2:{ unfold removefrom_hashtable in R. rewrite HL in R. cbn [bind] in R. rewrite He in R. discriminate. }
  exists t', l1, i, l2, c1, k', c2. split; [exact R|]. split; [exact El|].
  assert (E0 : i0 = i).
  { pose proof (inv_inuse _ _ _ _ _ I _ _ He Hs) as Hin. rewrite El in Hin.
    destruct (in_app_or _ _ _ Hin) as [H|[H|H]]; [|auto|]; exfalso.
    all: assert (H' : In i0 (l1 ++ l2)) by (apply in_or_app; auto); destruct (inv_in_l I' _ H') as (kd & _ & e' & He' & Hs' & _).
    all: unfold removefrom_hashtable in R; rewrite HL in R; cbn [bind] in R; rewrite He in R; injection R as <-; cbn [ht_table] in He'.
    all: destruct (he_prev e0) as [pv|], (he_next e0) as [nx|]; rewrite ?nth_error_upd in He'; rewrite Nat.eqb_refl, He in He'; try destruct (Nat.eqb pv i0); try destruct (Nat.eqb nx i0); cbn in He'; injection He' as <-; discriminate. }
  subst i0. pose proof (inv_cont _ _ _ _ _ I) as F. rewrite El, Ec in F. destruct (Forall2_mid _ _ _ _ _ _ _ Len F) as [_ (e' & He' & _ & _ & Hd')]. cbn in Hd'.
  assert (d = d0) by congruence. subst d. auto.
Qed.

Notation answers k m := (match_key link_map_hash link_map_cmp k (key_of m)).
Record rlibs (l : lstate) (ks : list lkey) (idx : list nat) : Prop := {
  rl_dll : dll (l_heap l) None (l_list l) idx;
  rl_nd : NoDup idx;
  rl_ks : NoDup ks;
  rl_rec : Forall2 (rec_of (l_heap l)) idx ks;
  rl_map : exists li c, ht_inv link_map_hash link_map_cmp (l_table l) li c /\ Permutation c (combine ks idx) }.

Lemma in_combine_nth {A B} (ks : list A) (idx : list B) k i : In (k, i) (combine ks idx) <-> exists n, nth_error ks n = Some k /\ nth_error idx n = Some i.
Proof.
  revert idx. induction ks as [|a ks IH]; intros [|b idx]; cbn [combine In].
  1-3: split; [intros []|]; intros ([|n] & H1 & H2); discriminate.
  split.
  - intros [H|H]; [injection H as -> ->; exists O; auto|]. apply IH in H. destruct H as (n & H). exists (S n). exact H.
  - intros ([|n] & H1 & H2); [left; cbn in *; congruence|right; apply IH; eauto].
Qed.
Lemma rlibs_get l ks idx m : rlibs l ks idx ->
  match get_library l m with Ok (Some i) => exists n k, nth_error ks n = Some k /\ nth_error idx n = Some i /\ answers k m | Ok None => forall k, In k ks -> ~ answers k m | Fault _ => False end.
Proof.
  intros [D N K R (li & c & I & P)]. unfold get_library. destruct (lookup_hashtable_spec _ _ _ (key_of m) I) as [(k & d & E & Hc & Hm)|[E Hn]]; rewrite E.
  - apply (Permutation_in _ P) in Hc. apply in_combine_nth in Hc. destruct Hc as (n & H1 & H2). exists n, k. auto.
  - intros k Hk. apply In_nth_error in Hk. destruct Hk as [n Hn']. destruct (nth_error idx n) as [i|] eqn:Ei.
    + apply (Hn k i). apply (Permutation_in _ (Permutation_sym P)). apply in_combine_nth. eauto.
    + apply nth_error_None in Ei. rewrite (Forall2_length _ _ _ R) in Ei. apply nth_error_Some_lt in Hn'. lia.
Qed.
Lemma answers_self m : answers (key_of m) m.
Proof. split; [auto|]. unfold link_map_cmp. rewrite Z.ltb_irrefl. auto. Qed.
Lemma rlibs_track l ks idx m : rlibs l ks idx ->
  exists l' idx' ks', lib_step l (LTrack m) = Ok l' /\ rlibs l' ks' idx' /\
    ((exists k, In k ks /\ answers k m /\ ks' = ks) \/ ((forall k, In k ks -> ~ answers k m) /\ ks' = key_of m :: ks)).
Proof.
  intros L. pose proof (rlibs_get l ks idx m L) as G. cbn [lib_step]. unfold track_library. destruct (get_library l m) as [[i|]|] eqn:Eg; [| |contradiction]; cbn [bind].
  - destruct G as (n & k & G1 & G2 & G3). exists l, idx, ks. split; [auto|]. split; [auto|]. left. exists k. split; [eapply nth_error_In; eauto|auto].
  - destruct L as [D N K R (li & c & I & P)]. unfold add_library.
    destruct (addto_spec _ _ _ (key_of m) (length (l_heap l)) I) as (t & li' & c' & Et & I' & P' & _).
    rewrite Et. cbn [bind]. set (h1 := match l_list l with Some h => upd (l_heap l) h (set_lprev (Some (length (l_heap l)))) | None => l_heap l end).
    exists (mkLS t (h1 ++ [mkLibr (lm_ptr m) (l_list l) None 0 false]) (Some (length (l_heap l))) (l_gen l)), (length (l_heap l) :: idx), (key_of m :: ks). split; [auto|]. split; [|right; auto].
    assert (Len : length h1 = length (l_heap l)) by (unfold h1; destruct (l_list l); [apply upd_length|auto]).
    assert (Old : forall i, In i idx -> (i < length (l_heap l))%nat) by (intros i Hi; destruct (dll_in _ _ _ _ _ D Hi) as [x Hx]; eapply nth_error_Some_lt; eauto).
    assert (New : nth_error (h1 ++ [mkLibr (lm_ptr m) (l_list l) None 0 false]) (length (l_heap l)) = Some (mkLibr (lm_ptr m) (l_list l) None 0 false)).
    { rewrite nth_error_app2 by lia. rewrite Len, Nat.sub_diag. auto. }
    constructor; cbn [l_heap l_list l_table].
    + econstructor; [exact New|auto|]. cbn [lb_next]. unfold h1. inversion D as [b E1 E2|b i x idx1 X1 X2 X3 E1 E2]; subst; [constructor|].
      cbn in N. inversion N as [|? ? N1 N2]; subst.
      econstructor; [rewrite nth_error_app1 by (rewrite upd_length; eapply nth_error_Some_lt; eauto); apply nth_upd_same; exact X1|auto|]. cbn [lb_next set_lprev]. eapply dll_frame; [exact X3|].
      intros j y Hj Y. exists y. split; [|auto]. rewrite nth_error_app1 by (rewrite upd_length; eapply nth_error_Some_lt; eauto). rewrite nth_upd_other; [auto|]. intros ->. contradiction.
    + constructor; [|auto]. intros H. apply Old in H. lia.
    + constructor; [|auto]. intros H. apply (G _ H). apply answers_self.
    + constructor; [exists (mkLibr (lm_ptr m) (l_list l) None 0 false); auto|]. clear - R Len. eapply F2_impl; [|exact R]. intros i k (lb & A & B).
      assert (X : exists lb', nth_error h1 i = Some lb' /\ lb_map lb' = lb_map lb).
      { unfold h1. destruct (l_list l) as [j|]; [|eauto]. rewrite nth_error_upd. destruct (Nat.eqb j i); [rewrite A; eexists; split; reflexivity|eauto]. }
      destruct X as (lb' & X1 & X2). exists lb'. split; [|congruence]. rewrite nth_error_app1; [auto|eapply nth_error_Some_lt; eauto].
    + exists li', ((key_of m, length (l_heap l)) :: c'). split; [exact I'|]. cbn [combine]. apply perm_skip. eapply Permutation_trans; [apply Permutation_sym; exact P'|exact P].
Qed.
Lemma combine_mid {A B} (k1 : list A) k k2 (l1 : list B) i l2 : length l1 = length k1 -> combine (k1 ++ k :: k2) (l1 ++ i :: l2) = combine k1 l1 ++ (k, i) :: combine k2 l2 /\ combine (k1 ++ k2) (l1 ++ l2) = combine k1 l1 ++ combine k2 l2.
Proof. revert l1. induction k1 as [|a k1 IH]; intros [|b l1] E; cbn in E; try discriminate; cbn; [auto|]. injection E as E. destruct (IH l1 E) as [-> ->]. auto. Qed.
Lemma nodup_snd {A B} (c1 : list (A * B)) k i c2 : NoDup (map snd (c1 ++ (k, i) :: c2)) -> forall k', In (k', i) (c1 ++ (k, i) :: c2) -> k' = k.
Proof.
  rewrite map_app. cbn [map snd]. intros N k' H. apply NoDup_remove_2 in N. apply in_app_or in H. destruct H as [H|[H|H]]; [|congruence|]; exfalso; apply N; apply in_or_app; [left|right]; apply (in_map snd) in H; exact H.
Qed.
Lemma map_snd_combine {A B} (ks : list A) (idx : list B) : length ks = length idx -> map snd (combine ks idx) = idx.
Proof. revert idx. induction ks as [|a ks IH]; intros [|b idx] E; cbn in *; try discriminate; [auto|]. rewrite IH by congruence. auto. Qed.
Lemma rlibs_remove l ks idx m : rlibs l ks idx ->
  exists l' idx' ks', remove_library l m = Ok l' /\ rlibs l' ks' idx' /\
    ((exists k1 k k2, ks = k1 ++ k :: k2 /\ answers k m /\ ks' = k1 ++ k2) \/ ((forall k, In k ks -> ~ answers k m) /\ ks' = ks /\ l' = l)).
Proof.
  intros L. pose proof (rlibs_get l ks idx m L) as G. unfold remove_library. destruct (get_library l m) as [[i|]|] eqn:Eg; [| |contradiction]; cbn [bind].
  2:{ exists l, idx, ks. split; [auto|]. split; [auto|]. right. auto. }
  destruct G as (n & k & G1 & G2 & G3).
  destruct L as [D N K R (li & c & I & P)].
  destruct (nth_error_split _ _ G2) as (l1 & l2 & -> & Hl1). destruct (nth_error_split _ _ G1) as (k1 & k2 & -> & Hk1). assert (E12 : length l1 = length k1) by congruence.
  destruct (dll_in _ _ _ _ i D ltac:(apply in_or_app; right; left; auto)) as [lib Hi].
  destruct (unlink _ _ _ _ _ _ D N Hi) as (U1 & U2 & U3 & U4 & U5).
  assert (Rd : forall h j, agree (l_heap l) h [j] -> In j (l1 ++ i :: l2) -> exists x, deref h j = Ok x).
  { intros h j A Hj. destruct (dll_in _ _ _ _ _ D Hj) as [x Hx]. destruct (A j x (or_introl eq_refl) Hx) as (y & Y & _). exists y. unfold deref. rewrite Y. auto. }
  assert (Len1 : forall j, nth_error (l_heap l) j <> None -> nth_error (unlink1 (l_heap l) lib) j <> None).
  { intros j Hj. unfold unlink1. destruct (lb_prev lib) as [p|]; [|auto]. rewrite nth_error_upd. destruct (Nat.eqb p j); [destruct (nth_error (l_heap l) j); [discriminate|contradiction]|auto]. }
  unfold deref. rewrite Hi. cbn [bind].
  replace (match lb_prev lib with Some p => do _ <- match nth_error (l_heap l) p with Some x => Ok x | None => Fault NullDeref end; Ok (upd (l_heap l) p (set_lnext (lb_next lib))) | None => Ok (l_heap l) end) with (Ok (unlink1 (l_heap l) lib)).
  2:{ unfold unlink1. destruct (lb_prev lib) as [p|] eqn:Ep; [|auto]. destruct (dll_in _ _ _ _ p D ltac:(apply in_or_app; left; auto)) as [x Hx]. rewrite Hx. auto. }
  cbn [bind]. assert (Hi1 : nth_error (unlink1 (l_heap l) lib) i = Some lib).
  { unfold unlink1. destruct (lb_prev lib) as [p|] eqn:Ep; [|auto]. rewrite nth_upd_other; [auto|]. intros ->. apply NoDup_remove_2 in N. apply N. apply in_or_app. left. apply U1. auto. }
  rewrite Hi1. cbn [bind].
  replace (match lb_next lib with Some p => do _ <- match nth_error (unlink1 (l_heap l) lib) p with Some x => Ok x | None => Fault NullDeref end; Ok (upd (unlink1 (l_heap l) lib) p (set_lprev (lb_prev lib))) | None => Ok (unlink1 (l_heap l) lib) end) with (Ok (unlink2 (unlink1 (l_heap l) lib) lib)).
  2:{ unfold unlink2. destruct (lb_next lib) as [p|] eqn:Ep; [|auto]. destruct (dll_in _ _ _ _ p D ltac:(apply in_or_app; right; right; auto)) as [x Hx].
      destruct (nth_error (unlink1 (l_heap l) lib) p) eqn:Q; [auto|]. exfalso. apply (Len1 p); [rewrite Hx; discriminate|auto]. }
  cbn [bind].
  assert (Hh : exists hd, l_list l = Some hd). { rewrite U4. destruct l1; cbn; eauto. } destruct Hh as [hd Ehd]. rewrite Ehd in *.
  replace (if Nat.eqb hd i then do x <- match nth_error (unlink2 (unlink1 (l_heap l) lib) lib) hd with Some x => Ok x | None => Fault NullDeref end; Ok (lb_next x) else Ok (Some hd))
    with (Ok (if Nat.eqb hd i then lb_next lib else Some hd)).
  2:{ destruct (Nat.eqb hd i) eqn:Q; [|auto]. apply Nat.eqb_eq in Q. subst hd. rewrite U3. auto. }
  cbn [bind].
  destruct (remove_data _ _ _ (key_of m) i I Eg) as (t' & s1 & sl & s2 & c1 & k' & c2 & Et & _ & Ec & _ & I'). rewrite Et. cbn [bind].
  eexists _, (l1 ++ l2), (k1 ++ k2). split; [reflexivity|]. split; [|left; exists k1, k, k2; auto].
  constructor; cbn [l_heap l_list l_table].
  - exact U5.
  - eapply NoDup_remove_1; eauto.
  - eapply NoDup_remove_1; eauto.
  - destruct (Forall2_mid _ _ _ _ _ _ _ E12 R) as [R1 _].
    assert (Hr : forall j k, In j (l1 ++ l2) -> rec_of (l_heap l) j k -> rec_of (upd (unlink2 (unlink1 (l_heap l) lib) lib) i (fun _ => mkLibr 0 None None 0 false)) j k).
    { intros j k0 Hj (lb & A & B). assert (Nij : i <> j) by (intros ->; apply NoDup_remove_2 in N; contradiction). unfold rec_of. rewrite nth_upd_other by auto.
      assert (X1 : exists y, nth_error (unlink1 (l_heap l) lib) j = Some y /\ lb_map y = lb_map lb).
      { unfold unlink1. destruct (lb_prev lib) as [p|]; [|eauto]. rewrite nth_error_upd. destruct (Nat.eqb p j); [rewrite A; eexists; split; reflexivity|eauto]. }
      destruct X1 as (y & Y1 & Y2). unfold unlink2. destruct (lb_next lib) as [p|]; [|exists y; split; [auto|congruence]]. rewrite nth_error_upd. destruct (Nat.eqb p j); [rewrite Y1; eexists; split; [reflexivity|cbn; congruence]|exists y; split; [auto|congruence]]. }
    clear - R1 Hr. revert R1 Hr. generalize (k1 ++ k2). generalize (l1 ++ l2). intros l0. generalize (upd (unlink2 (unlink1 (l_heap l) lib) lib) i (fun _ => mkLibr 0 None None 0 false)). intros h' ks R1.
    induction R1 as [|j k l0 ks R0 R1 IH]; intros Hr; constructor; [apply Hr; [left; auto|auto]|]. apply IH. intros j' k' H'. apply Hr. right. auto.
  - exists (s1 ++ s2), (c1 ++ c2). cbn [l_table]. split; [exact I'|]. destruct (combine_mid k1 k k2 l1 i l2 E12) as [C1 C2]. rewrite C2. rewrite C1 in P. subst c.
    assert (k' = k).
    { apply (nodup_snd (combine k1 l1) k i (combine k2 l2)); [|apply (Permutation_in _ P), in_elt]. rewrite <- C1, map_snd_combine; [exact N|]. symmetry. exact (Forall2_length _ _ _ R). }
    subst k'. eapply Permutation_app_inv. exact P.
Qed.
