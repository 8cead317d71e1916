(** C82: lookups between the stores of an insertion or a removal; in particular dlsym in a signal handler that interrupts
    gotcha_wrap. *)
From Verif Require Import Base ListFacts HashModel HashProofs SpecHash HashTrace ElfModel ToolModel CoreModel SpecCore SpecRun ToolProofs CoreMaps CoreRel CoreLib CoreStep CoreWrap CoreLoop CoreMain CoreMicro CoreDl HashMoments SpecMoments MomentProofs PropsElf Demo PropsCoreEx.
From Coq Require Import Permutation.
From Coq Require String.
Import String.StringSyntax.
Open Scope string_scope.
Open Scope list_scope.
Open Scope Z_scope.

(** The single stores, all made, are the operation. *)
Theorem C82_stores_make_the_operation : forall K D (t : htable K D) k d,
  (forall l, add_stores t k d = Ok l -> addto_hashtable t k d = Ok (fold_left happly l t)) /\
  (forall t', addto_hashtable t k d = Ok t' -> exists l, add_stores t k d = Ok l) /\
  (forall l, remove_stores t k = Ok l -> exists b, removefrom_hashtable t k = Ok (fold_left happly l t, b)) /\
  (forall t' b, removefrom_hashtable t k = Ok (t', b) -> exists l, remove_stores t k = Ok l).
Proof.
  intros K D t k d. pose proof (add_stores_ok t k d) as A. pose proof (remove_stores_ok t k) as R. repeat split.
  - intros l E. rewrite E in A. exact A.
  - intros t' E. destruct (add_stores t k d) as [l|]; [eauto|congruence].
  - intros l E. rewrite E in R. exact R.
  - intros t' b E. destruct (remove_stores t k) as [l|]; [eauto|congruence].
Qed.
Print Assumptions C82_stores_make_the_operation.

(** the table reached and its content *)
Lemma reached K D (P : K -> Prop) hf cmp eqb ps n (ops : list (hop K D)) t0 t rs : 48 <= ps -> 0 < n -> cmp_ok P hf cmp -> eqb_ok eqb ->
  Forall (fun o => P (op_key o)) ops -> adds_absent eqb [] ops -> create_hashtable ps n hf cmp = Ok t0 -> hrun t0 ops = Ok (t, rs) ->
  exists l c, ht_inv hf cmp t l c /\ keys_in P c /\ NoDup (map fst c) /\ Permutation (fst (SpecHash.arun eqb [] ops)) c.
Proof.
  intros Hps Hn CO EO HP HA E0 E. destruct (create_spec (D := D) ps n hf cmp Hps Hn) as (t1 & H0 & I0 & _). rewrite E0 in H0. injection H0 as <-.
  destruct (hrun_map P hf cmp CO eqb EO ops t0 [] [] [] I0) as (t' & l' & c' & H1 & I' & K' & N' & M' & _); auto; try constructor. rewrite E in H1. injection H1 as <- _. exists l', c'. auto.
Qed.
Lemma inv_answers K D (P : K -> Prop) hf cmp eqb (t : htable K D) l c m : cmp_ok P hf cmp -> eqb_ok eqb -> ht_inv hf cmp t l c -> keys_in P c -> NoDup (map fst c) -> Permutation m c -> answers P eqb t m.
Proof.
  intros CO EO I KI N M k Pk. destruct (hstep_map P hf cmp CO eqb EO t l c m (HLookup k) I KI Pk N M Logic.I) as (t' & l' & c' & H & _). cbn in H. destruct (lookup_hashtable t k); [|discriminate H]. cbn in H. congruence.
Qed.
Lemma view_answers K D (P : K -> Prop) eqb (t u : htable K D) m : view_same t u -> answers P eqb t m -> answers P eqb u m.
Proof. intros V A k Pk. rewrite (view_lookup _ _ k V). apply A. exact Pk. Qed.

(** An insertion: at every moment all lookups answer as before it or as after it, unless the table grows; then there may be
    moments at which every lookup crashes. *)
Theorem C82_add_partial : forall K D (P : K -> Prop) hf cmp eqb ps n (ops : list (hop K D)) t0 t rs k d,
  48 <= ps -> 0 < n -> cmp_ok P hf cmp -> eqb_ok eqb -> Forall (fun o => P (op_key o)) (ops ++ [HAdd k d]) -> adds_absent eqb [] (ops ++ [HAdd k d]) ->
  create_hashtable ps n hf cmp = Ok t0 -> hrun t0 ops = Ok (t, rs) ->
  exists l, add_stores t k d = Ok l /\ forall u, moment l t u ->
    answers P eqb u (fst (SpecHash.arun eqb [] ops)) \/ answers P eqb u ((k, d) :: fst (SpecHash.arun eqb [] ops)) \/ (ht_size t / 2 < inuse_slots t /\ unusable u).
Proof.
  intros K D P hf cmp eqb ps n ops t0 t rs k d Hps Hn CO EO HP HA E0 E. apply Forall_app in HP as [HP HPk]. inversion HPk as [|? ? Pk _]; subst. cbn [op_key] in Pk.
  assert (AA : forall m (l : list (hop K D)), adds_absent eqb m (l ++ [HAdd k d]) -> adds_absent eqb m l /\ aget eqb (fst (SpecHash.arun eqb m l)) k = None).
  { intros m l. revert m. induction l as [|o l IH]; intros m H; cbn [app adds_absent SpecHash.arun fst] in *; [tauto|]. destruct H as [H1 H2]. destruct (IH _ H2) as [H3 H4]. split; [auto|]. destruct (SpecHash.astep eqb m o) as [m1 x]. cbn [fst] in *. destruct (SpecHash.arun eqb m1 l). exact H4. }
  destruct (AA [] ops HA) as [HA' Hk]. clear AA. destruct (reached K D P hf cmp eqb ps n ops t0 t rs) as (l & c & I & KI & N & M); auto. set (m := fst (SpecHash.arun eqb [] ops)) in *.
  destruct (hstep_map P hf cmp CO eqb EO t l c m (HAdd k d) I KI Pk N M Hk) as (t' & l' & c' & H & I' & K' & N' & M' & _). cbn [hstep SpecHash.astep fst snd] in H, M'.
  pose proof (add_stores_ok t k d) as HS. destruct (add_stores t k d) as [st|] eqn:Es; [|rewrite HS in H; discriminate H]. rewrite HS in H. cbn [bind] in H. injection H as H. exists st. split; [reflexivity|]. intros u Mo.
  pose proof (inv_answers K D P hf cmp eqb t l c m CO EO I KI N M) as A0. pose proof (inv_answers K D P hf cmp eqb t' l' c' _ CO EO I' K' N' M') as A1. rewrite <- H in A1.
  destruct (add_moment t k d st u Es Mo) as [V|[V|(ns & tg & G & Ne & Gr & V)]].
  - left. eapply view_answers; eassumption.
  - right. left. eapply view_answers; eassumption.
  - pose proof (inv_pos _ _ _ _ _ I) as Hpos. pose proof (inv_load _ _ _ _ _ I) as Hload. pose proof (inv_count _ _ _ _ _ I) as Hcnt. rewrite (inuse_count I).
    destruct (Z_le_gt_dec (ht_count t) (ht_size t / 2)) as [Hle|Hgt]; [rewrite grow_size_ok in G by lia; congruence|].
    assert (Hs : ns = 2 * ht_size t).
    { assert (0 <= ht_size t / 2) by (apply Z.div_pos; lia). destruct (grow_size_spec (S (S (Z.to_nat (ht_count t)))) (ht_count t) (ht_size t)) as (ns' & G' & _ & _ & [X|[_ X]]); [lia|lia|lia| |]; rewrite G in G'; injection G' as <-; congruence. }
    destruct V as [V|V]; [right; right; split; [lia|exact V]|]. left.
    destruct (grow_spec t l c ns I) as (tg' & lg & cg & Gr' & Ig & Mg & _); [lia|subst ns; pose proof (Z.div_mod (ht_size t) 2); pose proof (Z.mod_pos_bound (ht_size t) 2); replace (2 * ht_size t) with (ht_size t * 2) by lia; rewrite Z.div_mul by lia; lia|].
    rewrite Gr in Gr'. injection Gr' as <-. eapply view_answers; [exact V|]. apply (inv_answers K D P hf cmp eqb tg lg cg m CO EO Ig).
    + eapply keys_in_perm; eassumption.
    + eapply perm_fst; eassumption.
    + etransitivity; eassumption.
Qed.
Print Assumptions C82_add_partial.

(** If more than half of the entries are in use, there is a moment at which every lookup crashes. *)
Theorem C82_growth_law : forall K D (P : K -> Prop) hf cmp ps n (ops : list (hop K D)) t0 t rs k d,
  48 <= ps -> 0 < n -> cmp_ok P hf cmp -> Forall (fun o => P (op_key o)) ops -> create_hashtable ps n hf cmp = Ok t0 -> hrun t0 ops = Ok (t, rs) ->
  ht_size t / 2 < inuse_slots t -> exists l u, add_stores t k d = Ok l /\ moment l t u /\ unusable u.
Proof.
  intros K D P hf cmp ps n ops t0 t rs k d Hps Hn CO HP E0 E Hg. destruct (create_spec (D := D) ps n hf cmp Hps Hn) as (t1 & H0 & I0 & _). rewrite E0 in H0. injection H0 as <-.
  destruct (hrun_bag P hf cmp CO ops t0 [] [] I0) as (t' & xs & l' & c' & H1 & I & _); auto; [constructor|]. rewrite E in H1. injection H1 as <- _. rewrite (inuse_count I) in Hg.
  destruct (addto_spec t l' c' k d I) as (t' & _ & _ & A & _ & _ & _ & Sz). specialize (Sz Hg). pose proof (add_stores_ok t k d) as HS. pose proof A as A0. unfold add_stores in *. unfold addto_hashtable in A.
  destruct (grow_size _ _ _) as [ns|] eqn:G; cbn [bind] in *; [|discriminate A]. destruct (Z.eqb_spec ns (ht_size t)) as [X|X].
  { exfalso. pose proof (inv_pos _ _ _ _ _ I) as Hpos. pose proof (inv_load _ _ _ _ _ I) as Hload. assert (0 <= ht_size t / 2) by (apply Z.div_pos; lia).
    destruct (grow_size_spec (S (S (Z.to_nat (ht_count t)))) (ht_count t) (ht_size t)) as (ns' & G' & L & _); [lia|lia|lia|]. rewrite G in G'. injection G' as <-. subst ns. lia. }
  destruct (grow_hashtable t ns) as [tg|] eqn:Gr; cbn [bind] in *; [|discriminate A]. destruct (ht_hashfunc tg) as [hf'|]; [|discriminate A]. destruct (insert_stores tg k d (hf' k)) as [li|] eqn:Ei; cbn [bind] in *.
  - exists (grow_stores tg ++ li), (fold_left happly [SSize 0] t). split; [reflexivity|]. split; [exists [SSize 0], (tl (grow_stores tg) ++ li); split; reflexivity|].
    intros k'. unfold lookup_hashtable, lookup. cbn. destruct (ht_hashfunc t), (ht_keycmp t); eexists; reflexivity.
  - congruence.
Qed.
Print Assumptions C82_growth_law.

(** A removal: at every moment the lookups of keys of another hash value, not 0, answer as before and after it. *)
Theorem C82_remove_partial : forall K D (P : K -> Prop) hf cmp eqb ps n (ops : list (hop K D)) t0 t rs k,
  48 <= ps -> 0 < n -> cmp_ok P hf cmp -> eqb_ok eqb -> Forall (fun o => P (op_key o)) ops -> adds_absent eqb [] ops ->
  create_hashtable ps n hf cmp = Ok t0 -> hrun t0 ops = Ok (t, rs) -> P k ->
  exists l, remove_stores t k = Ok l /\ forall u k', moment l t u -> P k' -> hf k' <> hf k -> hf k' <> 0 ->
    lookup_hashtable u k' = Ok (aget eqb (fst (SpecHash.arun eqb [] ops)) k').
Proof.
  intros K D P hf cmp eqb ps n ops t0 t rs k Hps Hn CO EO HP HA E0 E Pk. destruct (reached K D P hf cmp eqb ps n ops t0 t rs) as (l & c & I & KI & N & M); auto.
  pose proof (inv_answers K D P hf cmp eqb t l c _ CO EO I KI N M) as A. unfold remove_stores. destruct (lookup_spec t l c k I) as [(i & e & k0 & dt & HL & He & Hs & Hk & Hd & Hm)|[HL _]]; rewrite HL; cbn [bind].
  - rewrite He. eexists. split; [reflexivity|]. intros u k' Mo Pk' N1 N2. rewrite <- (A k' Pk'). eapply (remove_moment hf t k i e); [exact HL|exact He| |exact Hs| |exact N2| |exact Mo].
    + apply (inv_hf _ _ _ _ _ I).
    + destruct (inv_entry _ _ _ _ _ I i e k0 He Hs Hk) as [X _]. destruct Hm as [Hm _]. congruence.
    + unfold remove_stores. rewrite HL. cbn [bind]. rewrite He. reflexivity.
  - exists []. split; [reflexivity|]. intros u k' (l1 & l2 & El & ->) Pk' _ _. destruct l1; [|discriminate El]. apply A. exact Pk'.
Qed.
Print Assumptions C82_remove_partial.

(** The lookup of a key that is being removed crashes: after the first store the entry is in use and its key is NULL. *)
Theorem C82_removal_law : forall K D (t : htable K D) k d, lookup_hashtable t k = Ok (Some d) ->
  exists l u, remove_stores t k = Ok l /\ moment l t u /\ lookup_hashtable u k = Fault NullDeref.
Proof.
  intros K D t k d E. unfold lookup_hashtable in E. destruct (lookup t k) as [[i|]|] eqn:L; cbn [bind] in E; try discriminate E. destruct (nth_error (ht_table t) i) as [e|] eqn:He; [|discriminate E].
  unfold remove_stores. rewrite L. cbn [bind]. rewrite He. eexists. exists (happly t (SKey i None)). split; [reflexivity|]. split; [exists [SKey i None]; eexists; split; reflexivity|]. apply remove_gone. exact L.
Qed.
Print Assumptions C82_removal_law.

(** *** gotcha_wrap: a new outermost wrapper replaces the entry of its function *)
Lemma insert_at_head_stores : forall bs b head ib bs', insert_at_head bs b head = Ok bs' -> nth_error (b_ib bs) b = Some ib ->
  exists l, head_stores (b_fn bs) (ub_name (ib_user ib)) b = Ok l /\ b_fn bs' = fold_left happly l (b_fn bs).
Proof.
  intros bs b head ib bs' E Hb. unfold insert_at_head in E. cbn [b_ib set_ib] in E. iba E as ib1. assert (U : ib_user ib1 = ib_user ib).
  { unfold deref in B. rewrite nth_error_upd_eq, Hb in B. cbn in B. injection B as <-. reflexivity. }
  rewrite U in *. clear U B. iba E as hb. iba E as bs2. iba E as [t1 fl]. iba E as t2. injection E as <-.
  assert (F : b_fn bs2 = b_fn bs) by (unfold set_wrappee in B0; destruct (b_handles _ _); [injection B0 as <-; reflexivity|discriminate B0]). rewrite F in B1. cbn [b_fn set_fn].
  unfold head_stores. pose proof (remove_stores_ok (b_fn bs) (ub_name (ib_user ib))) as R. destruct (remove_stores _ _) as [l1|]; [|congruence]. destruct R as (b' & R). rewrite R in B1. injection B1 as <- <-. cbn [bind]. rewrite R. cbn [bind].
  pose proof (add_stores_ok (happlys l1 (b_fn bs)) (ub_name (ib_user ib)) b) as S2. destruct (add_stores _ _ _) as [l2|]; [|congruence]. cbn [bind]. exists (l1 ++ l2). split; [reflexivity|]. rewrite fold_left_app. unfold happlys in *. congruence.
Qed.
(** head_stores are the stores insert_at_head (src/gotcha.c:121-130) makes to the table of functions. *)
Theorem C82_head_stores : forall bs b head ib bs', insert_at_head bs b head = Ok bs' -> nth_error (b_ib bs) b = Some ib ->
  exists l, head_stores (b_fn bs) (ub_name (ib_user ib)) b = Ok l /\ b_fn bs' = fold_left happly l (b_fn bs).
Proof. exact insert_at_head_stores. Qed.
Print Assumptions C82_head_stores.

(** dlsym of the function crashes at one of these moments, in every history. *)
Theorem C82_dlsym_law : forall e maps mem ops st rs w h n x r b,
  process_ok e maps ops -> fresh e ops -> existsb is_api ops = true -> run e (init_state maps mem) ops = Ok (st, rs) -> stack e maps ops n = x :: r ->
  exists l u, head_stores (b_fn (s_b st)) n b = Ok l /\ moment l (b_fn (s_b st)) u /\ dlsym_wrapper e w (with_functions u st) h n = Fault NullDeref.
Proof.
  intros e maps mem ops st rs w h n x r b P F A E Hs. destruct (dl_handles e maps mem ops st rs P F A E) as (R & Hi & [w1 H1] & [w2 H2]).
  pose proof (fn_lookup e True st _ n R Hi) as L. fold (stack e maps ops n) in L. rewrite Hs in L. destruct L as (i & ib & L & _).
  destruct (C82_removal_law _ _ _ _ _ L) as (l1 & u & R1 & (la & lb & El & ->) & Hu). set (t := b_fn (s_b st)) in *.
  assert (M : exists f, smap t f). { destruct R as [R|[ch S]]; [rewrite (pr_i _ _ _ _ _ R) in Hi; discriminate|]. eexists. exact (br_fn _ _ _ _ _ (sr_b _ _ _ _ _ _ _ _ S)). }
  destruct M as [f M]. destruct (smap_remove t f n M) as (t1 & Ht1 & M1). destruct (smap_add t1 _ n b M1) as (t2 & Ht2 & _); [apply cupd_eq|].
  unfold head_stores. rewrite R1. cbn [bind]. rewrite Ht1. cbn [bind]. pose proof (add_stores_ok t1 n b) as S2. destruct (add_stores t1 n b) as [l2|]; [|congruence]. cbn [bind].
  exists (l1 ++ l2), (fold_left happly la t). split; [reflexivity|]. split; [exists la, (lb ++ l2); rewrite El, app_assoc; auto|].
  unfold dlsym_wrapper, with_functions. unfold gotcha_get_wrappee in *. cbn [s_b set_b set_fn b_handles b_ib b_fn]. rewrite H1, H2. cbn [bind]. rewrite Hu. reflexivity.
Qed.
Print Assumptions C82_dlsym_law.

(** dlsym of functions of another hash value, not 0, is not disturbed by it. *)
Theorem C82_dlsym_partial : forall e maps mem ops st rs w h n x r n' b l u,
  process_ok e maps ops -> fresh e ops -> existsb is_api ops = true -> run e (init_state maps mem) ops = Ok (st, rs) -> stack e maps ops n = x :: r ->
  head_stores (b_fn (s_b st)) n b = Ok l -> moment l (b_fn (s_b st)) u -> strhash n' <> strhash n -> strhash n' <> 0 ->
  dlsym_wrapper e w (with_functions u st) h n' = dlsym_wrapper e w st h n'.
Proof.
  intros e maps mem ops st rs w h n x r n' b l u P F A E Hst Hl Mo N1 N2. destruct (dl_handles e maps mem ops st rs P F A E) as (R & Hi & [w1 H1] & [w2 H2]).
  pose proof (fn_lookup e True st _ n R Hi) as Lk. fold (stack e maps ops n) in Lk. rewrite Hst in Lk. destruct Lk as (i0 & ib0 & Lk & _). set (t := b_fn (s_b st)) in *.
  assert (M : exists f, smap t f). { destruct R as [R|[ch S]]; [rewrite (pr_i _ _ _ _ _ R) in Hi; discriminate|]. eexists. exact (br_fn _ _ _ _ _ (sr_b _ _ _ _ _ _ _ _ S)). }
  destruct M as [f M]. destruct (smap_remove t f n M) as (t1 & Ht1 & M1). destruct (smap_add t1 _ n b M1) as (t2 & Ht2 & M2); [apply cupd_eq|].
  rewrite (smap_lookup _ _ n M) in Lk. injection Lk as Lk. rewrite Lk in Ht1. assert (Nn : n' <> n) by congruence.
  assert (L1 : lookup_hashtable t1 n' = lookup_hashtable t n') by (rewrite (smap_lookup _ _ n' M), (smap_lookup _ _ n' M1); rewrite cupd_neq by exact Nn; reflexivity).
  assert (L2 : lookup_hashtable t2 n' = lookup_hashtable t n') by (rewrite (smap_lookup _ _ n' M), (smap_lookup _ _ n' M2); rewrite !cupd_neq by exact Nn; reflexivity).
  assert (L : lookup_hashtable u n' = lookup_hashtable t n').
  { unfold head_stores in Hl. destruct (remove_stores t n) as [l1|] eqn:R1; [|discriminate Hl]. cbn [bind] in Hl. pose proof (remove_stores_ok t n) as RO. rewrite R1 in RO. destruct RO as (bb & RO). rewrite RO in Ht1, Hl. injection Ht1 as X1 Xb. cbn [bind] in Hl. rewrite X1 in Hl.
    pose proof (add_stores_ok t1 n b) as AO. destruct (add_stores t1 n b) as [l2|] eqn:A2; [|discriminate Hl]. cbn [bind] in Hl. assert (Y : l = l1 ++ l2) by congruence. clear Hl. destruct Mo as (la & lb & El & ->). rewrite Y in El. destruct (app_split _ _ _ _ (eq_sym El)) as [(a2 & Ea)|(b1 & -> & Eb)].
    - destruct M as (li & c & I & _). unfold remove_stores in R1. destruct (lookup_spec t li c n I) as [(i & e0 & k0 & dt & HL & He & Hs & Hk & Hd & Hm)|[HL _]]; rewrite HL in R1; cbn [bind] in R1.
      + eapply (remove_moment strhash t n i e0 l1); [exact HL|exact He| |exact Hs| |exact N2| |].
        * apply (inv_hf _ _ _ _ _ I).
        * destruct (inv_entry _ _ _ _ _ I i e0 k0 He Hs Hk) as [X _]. destruct Hm as [Hm _]. congruence.
        * unfold remove_stores. rewrite HL. exact R1.
        * exists la, a2. auto.
      + injection R1 as <-. destruct la; [reflexivity|discriminate Ea].
    - rewrite fold_left_app. fold (happlys l1 t). rewrite X1. fold (happlys b1 t1). destruct (add_moment t1 n b l2 (happlys b1 t1) A2) as [V|[V|(ns & tg & G & Ne & Gr & V)]]; [exists b1, lb; auto| | |].
      + rewrite (view_lookup _ _ n' V). exact L1.
      + rewrite (view_lookup _ _ n' V). rewrite Ht2 in AO. injection AO as <-. exact L2.
      + destruct M as (li & c & I & _). destruct M1 as (li1 & c1 & I1 & _). destruct (remove_spec t li c n I) as [(t' & la & i & lc & ca & k' & d & cb & e0 & Er & -> & -> & Hlen & _ & I' & Sz & _)|[Er Hno]].
        * rewrite RO in Er. injection Er as Er _. rewrite X1 in Er. subst t'. pose proof (inv_count _ _ _ _ _ I) as C0. pose proof (inv_load _ _ _ _ _ I) as C1. pose proof (inv_count _ _ _ _ _ I') as C2. pose proof (inv_pos _ _ _ _ _ I) as C3. rewrite app_length in *. cbn [length] in *.
          rewrite grow_size_ok in G; [congruence|rewrite Sz; exact C3| |lia]. rewrite Sz. lia.
        * rewrite RO in Er. congruence. }
  unfold dlsym_wrapper, with_functions. unfold gotcha_get_wrappee in *. cbn [s_b set_b set_fn b_handles b_ib b_fn]. fold t. rewrite H1, H2. cbn [bind]. rewrite L. reflexivity.
Qed.
Print Assumptions C82_dlsym_partial.

(** Between removal and insertion dlsym returns the original function, as if it were not wrapped. *)
Theorem C82_unwrapped_law : forall e maps mem ops st rs w h n x r b,
  process_ok e maps ops -> fresh e ops -> existsb is_api ops = true -> run e (init_state maps mem) ops = Ok (st, rs) -> stack e maps ops n = x :: r -> h <> 18446744073709551615 ->
  exists l u, head_stores (b_fn (s_b st)) n b = Ok l /\ moment l (b_fn (s_b st)) u /\ dlsym_wrapper e w (with_functions u st) h n = Ok (DReturn (dw_dlsym w h n)).
Proof.
  intros e maps mem ops st rs w h n x r b P F A E Hs Hh. destruct (dl_handles e maps mem ops st rs P F A E) as (R & Hi & [w1 H1] & [w2 H2]). set (t := b_fn (s_b st)) in *.
  assert (M : exists f, smap t f). { destruct R as [R|[ch S]]; [rewrite (pr_i _ _ _ _ _ R) in Hi; discriminate|]. eexists. exact (br_fn _ _ _ _ _ (sr_b _ _ _ _ _ _ _ _ S)). }
  destruct M as [f M]. destruct (smap_remove t f n M) as (t1 & Ht1 & M1). destruct (smap_add t1 _ n b M1) as (t2 & Ht2 & _); [apply cupd_eq|].
  pose proof (remove_stores_ok t n) as RO. unfold head_stores. destruct (remove_stores t n) as [l1|]; [|congruence]. destruct RO as (bb & RO). cbn [bind]. rewrite Ht1. cbn [bind]. rewrite RO in Ht1. injection Ht1 as X _.
  pose proof (add_stores_ok t1 n b) as S2. destruct (add_stores t1 n b) as [l2|]; [|congruence]. cbn [bind]. exists (l1 ++ l2), t1. split; [reflexivity|]. split; [exists l1, l2; auto|].
  unfold dlsym_wrapper, with_functions. unfold gotcha_get_wrappee in *. cbn [s_b set_b set_fn b_handles b_ib b_fn s_p]. rewrite H1, H2. cbn [bind]. rewrite (smap_lookup _ _ n M1), cupd_eq. cbn [bind].
  destruct (Z.eqb_spec h RTLD_NEXT) as [Y|Y]; [contradiction|reflexivity].
Qed.
Print Assumptions C82_unwrapped_law.

(** Cases meeting the hypotheses: a table of two entries, one of them used again after a removal; the next insertion
    makes it grow. *)
Definition ops82 : list (hop Z Z) := [HAdd 1 10; HAdd 2 20; HRemove 1; HAdd 3 30].
Definition hf82 (k : Z) : Z := 5 + k mod 2.
Definition t82 : htable Z Z := match create_hashtable 48 1 hf82 Z.sub with Ok t => match hrun t ops82 with Ok (t, _) => t | Fault _ => t end | Fault _ => mkHT 0 0 None None [] None end.
Example C82_table_ex : cmp_ok (fun _ => True) hf82 Z.sub /\ eqb_ok Z.eqb /\ adds_absent Z.eqb [] (ops82 ++ [HAdd 4 40]) /\
  (do t0 <- create_hashtable 48 1 hf82 Z.sub; hrun t0 ops82) = Ok (t82, [RAdded; RAdded; RRemoved true; RAdded]) /\ ht_size t82 / 2 < inuse_slots t82 /\ lookup_hashtable t82 2 = Ok (Some 20) /\
  match add_stores t82 4 40 with Ok l => length l | Fault _ => 0%nat end = 21%nat /\ match remove_stores t82 2 with Ok l => length l | Fault _ => 0%nat end = 6%nat.
Proof.
  split; [intros a b _ _ _; lia|]. split; [intros a b; apply Z.eqb_eq|]. split; [vm_compute; repeat split|]. split; [vm_compute; reflexivity|]. split; [vm_compute; reflexivity|]. split; [vm_compute; reflexivity|]. split; vm_compute; reflexivity.
Qed.

(** Tool "a" has wrapped f; while tool "b", of higher priority, wraps it, dlsym of f crashes.  The full claim is false. *)
Definition before82 : list op := [OWrap [mkUB f_name 11 1] (Some n_a); OSetPriority n_b 5].
Definition wrap82 : op := OWrap [mkUB f_name 21 3] (Some n_b).
Example C82_history_ex : process_ok demo_env demo_libs before82 /\ fresh demo_env before82 /\ existsb is_api before82 = true /\ is_ok (demo_run before82) = true /\
  stack demo_env demo_libs before82 f_name = [mkE n_a 11 1] /\ strhash g_name <> strhash f_name /\ strhash g_name <> 0.
Proof.
  split; [process|]. split; [apply freshb_ok; vm_compute; reflexivity|]. split; [reflexivity|]. split; [vm_compute; reflexivity|]. split; [vm_compute; reflexivity|]. split; vm_compute; discriminate.
Qed.

Definition table82 : htable cstr nat := b_fn (s_b (st_of (demo_run before82))).
Definition stores82 : list (hstore cstr nat) := match head_stores table82 f_name 3 with Ok l => l | Fault _ => [] end.
Theorem C82_refuted : exists e maps mem ops o st rs st' rs' w h n b l u, process_ok e maps (ops ++ [o]) /\ fresh e (ops ++ [o]) /\
  run e (init_state maps mem) ops = Ok (st, rs) /\ run e (init_state maps mem) (ops ++ [o]) = Ok (st', rs') /\
  head_stores (b_fn (s_b st)) n b = Ok l /\ b_fn (s_b st') = fold_left happly l (b_fn (s_b st)) /\ moment l (b_fn (s_b st)) u /\
  dlsym_wrapper e w st h n = Ok (DReturn 11) /\ dlsym_wrapper e w (with_functions u st) h n = Fault NullDeref.
Proof.
  assert (C : forall ops, is_ok (demo_run ops) = true -> demo_run ops = Ok (st_of (demo_run ops), rs_of (demo_run ops))) by (intros ops H; apply run_of, H).
  exists demo_env, demo_libs, demo_mem, before82, wrap82, (st_of (demo_run before82)), (rs_of (demo_run before82)), (st_of (demo_run (before82 ++ [wrap82]))), (rs_of (demo_run (before82 ++ [wrap82]))).
  exists demo_world, 1, f_name, 3%nat, stores82, (fold_left happly (firstn 1 stores82) table82).
  split; [process|]. split; [apply freshb_ok; vm_compute; reflexivity|]. split; [apply C; vm_compute; reflexivity|]. split; [apply C; vm_compute; reflexivity|].
  split; [vm_compute; reflexivity|]. split; [vm_cast_no_check (eq_refl (fold_left happly stores82 table82))|]. split; [exists (firstn 1 stores82), (skipn 1 stores82); split; [symmetry; apply firstn_skipn|reflexivity]|]. split; vm_compute; reflexivity.
Qed.
Print Assumptions C82_refuted.
