(** Libraries whose link_maps have equal hash values: the later one, at a lower address, shares the record of the first
    one and is never rewritten. *)
From Verif Require Import Base ListFacts HashModel HashProofs SpecHash HashTrace ElfModel SpecElf ToolModel CoreModel SpecCore SpecRun SpecSync
  ToolProofs CoreMaps CoreRel CoreLib CoreFacts CoreApi2 CoreMicro CoreMicro2 CoreProt CoreStall.
From Coq Require Import Permutation.

Section Share.
Context (e : env) (Hps : 48 <= e_ps e) (a : lmap).
Notation hash m := (link_map_hash (key_of m)).

(** [o]: the record of [a], the only one with that hash value *)
Definition sinv (l : lstate) (o : option nat) : Prop :=
  exists li c, ht_inv link_map_hash link_map_cmp (l_table l) li c /\
    (forall k i, In (k, i) c -> link_map_hash k = hash a -> k = key_of a /\ o = Some i) /\
    (forall i, o = Some i -> In (key_of a, i) c /\ exists lb, nth_error (l_heap l) i = Some lb /\ lb_map lb = lm_ptr a).
(** ... is up to date *)
Definition cur (l : lstate) (o : option nat) : Prop := exists i lb, o = Some i /\ nth_error (l_heap l) i = Some lb /\ lb_gen lb = l_gen l.
(** records persist *)
Definition kept_recs (l l' : lstate) : Prop :=
  l_gen l' = l_gen l /\ forall j lb, nth_error (l_heap l) j = Some lb -> exists lb', nth_error (l_heap l') j = Some lb' /\ lb_map lb' = lb_map lb /\ (lb_gen lb' = lb_gen lb \/ lb_gen lb' = l_gen l).
Lemma kept_cur l l' o : kept_recs l l' -> cur l o -> cur l' o.
Proof. intros [G K] (i & lb & -> & H & E). destruct (K _ _ H) as (lb' & H' & _ & D). exists i, lb'. split; [auto|]. split; [auto|]. destruct D; congruence. Qed.
Lemma kept_trans_recs l1 l2 l3 : kept_recs l1 l2 -> kept_recs l2 l3 -> kept_recs l1 l3.
Proof.
  intros [G K] [G' K']. split; [congruence|]. intros j lb H. destruct (K _ _ H) as (x & Hx & M & D). destruct (K' _ _ Hx) as (y & Hy & M' & D'). exists y. split; [auto|]. split; [congruence|].
  destruct D, D'; [left|right|right|right]; congruence.
Qed.
Lemma kept_refl l : kept_recs l l.
Proof. split; [auto|]. eauto 6. Qed.
Lemma sinv_kept l l' o : l_table l' = l_table l -> kept_recs l l' -> sinv l o -> sinv l' o.
Proof.
  intros T [_ K] (li & c & I & A & B). exists li, c. rewrite T. split; [auto|]. split; [auto|]. intros i Hi. destruct (B i Hi) as (H1 & lb & H2 & H3). split; [auto|].
  destruct (K _ _ H2) as (lb' & H4 & H5 & _). exists lb'. split; [auto|congruence].
Qed.
Lemma cmp_le m : u64 (lm_ptr m) <= u64 (lm_ptr a) -> link_map_cmp (key_of a) (key_of m) = 0.
Proof. intros H. unfold link_map_cmp. cbn [key_of fst]. destruct (Z.ltb_spec (u64 (lm_ptr a)) (u64 (lm_ptr m))); [lia|auto]. Qed.

(** a shadowed library is found under the record of [a] *)
Lemma sinv_lookup l i m : sinv l (Some i) -> hash m = hash a -> u64 (lm_ptr m) <= u64 (lm_ptr a) -> get_library l m = Ok (Some i).
Proof.
  intros (li & c & I & A & B) Hh Hp. unfold get_library. destruct (B i eq_refl) as (Hin & _).
  destruct (lookup_hashtable_spec _ _ _ (key_of m) I) as [(k & d & E & Hc & Hm & _)|[E N]].
  - rewrite E. destruct (A k d Hc) as [_ H]; [congruence|]. congruence.
  - exfalso. apply (N _ _ Hin). split; [auto|]. apply cmp_le. auto.
Qed.
Lemma sinv_none l m : sinv l None -> hash m = hash a -> get_library l m = Ok None.
Proof.
  intros (li & c & I & A & _) Hh. unfold get_library. destruct (lookup_hashtable_spec _ _ _ (key_of m) I) as [(k & d & E' & Hc & Hm & _)|[E' _]]; [|auto].
  exfalso. destruct (A k d Hc) as [_ H]; [congruence|discriminate].
Qed.

Lemma add_kept l m l' i : add_library l m = Ok (l', i) -> i = length (l_heap l) /\ kept_recs l l' /\ addto_hashtable (l_table l) (key_of m) i = Ok (l_table l') /\
  nth_error (l_heap l') i = Some (mkLibr (lm_ptr m) (l_list l) None 0 false).
Proof.
  unfold add_library. intros E. iba E as t. injection E as <- <-. set (n := length (l_heap l)) in *.
  set (h := match l_list l with Some j => upd (l_heap l) j (set_lprev (Some n)) | None => l_heap l end).
  assert (L : length h = n) by (unfold h; destruct (l_list l); [apply upd_length|reflexivity]).
  split; [auto|]. split; [|split; [exact B|cbn [l_heap]; rewrite nth_error_app2 by lia; rewrite L, Nat.sub_diag; reflexivity]].
  split; [reflexivity|]. cbn [l_heap]. intros j lb H. assert (j < n)%nat by (eapply nth_error_Some_lt; eauto). rewrite nth_error_app1 by lia.
  unfold h. destruct (l_list l) as [q|]; [|eauto 6]. rewrite nth_error_upd. destruct (Nat.eqb q j); [|eauto 6]. rewrite H. cbn. eexists. split; [reflexivity|]. auto.
Qed.

Lemma sinv_track l o m l' i : sinv l o -> (hash m = hash a -> key_of m = key_of a \/ (o <> None /\ u64 (lm_ptr m) <= u64 (lm_ptr a))) -> track_library l m = Ok (l', i) ->
  exists o', sinv l' o' /\ kept_recs l l' /\ (hash m = hash a -> o' = Some i) /\ (o <> None -> o' = o) /\ (hash m <> hash a -> o' = o).
Proof.
  intros S Hm E. unfold track_library in E. destruct (get_library l m) as [r|] eqn:EG; [|discriminate]. cbn [bind] in E. destruct r as [j|].
  - injection E as <- <-. exists o. split; [auto|]. split; [apply kept_refl|]. split; [|auto]. intros Hh. destruct S as (li & c & I & A & B). unfold get_library in EG.
    destruct (lookup_hashtable_spec _ _ _ (key_of m) I) as [(k & d & E' & Hc & Hk & _)|[E' _]]; [|congruence]. destruct (A k d Hc) as [_ H]; congruence.
  - destruct (add_kept _ _ _ _ E) as (Ei & K & Et & En). assert (HB := S). destruct S as (li & c & I & A & B).
    destruct (addto_spec (l_table l) li c (key_of m) i I) as (t & li' & c' & Et' & I' & Pm & _). rewrite Et in Et'. injection Et' as <-.
    destruct (Z.eq_dec (hash m) (hash a)) as [Hh|Hh].
    + assert (Hk : key_of m = key_of a /\ o = None).
      { destruct (Hm Hh) as [Hk|[Ho Hp]]; [|destruct o as [j|]; [|congruence]; rewrite (sinv_lookup l j m HB Hh Hp) in EG; discriminate].
        split; [auto|]. destruct o as [j|]; [|auto]. rewrite (sinv_lookup l j m HB Hh) in EG; [discriminate|]. injection Hk as -> _. lia. }
      destruct Hk as [Hk ->]. exists (Some i). split; [|split; [auto|]; split; [auto|]; split; congruence].
      exists li', ((key_of m, i) :: c'). split; [auto|]. split.
      * intros k j [Q|Q] Hj; [injection Q as <- <-; auto|]. exfalso. apply (Permutation_in _ (Permutation_sym Pm)) in Q. destruct (A _ _ Q Hj). discriminate.
      * intros j Q. injection Q as <-. split; [left; rewrite Hk; auto|]. eexists. split; [exact En|]. cbn. injection Hk; auto.
    + exists o. split; [|split; [auto|]; split; [tauto|]; auto]. exists li', ((key_of m, i) :: c'). split; [auto|]. split.
      * intros k j [Q|Q] Hj; [injection Q as <- <-; tauto|]. apply (Permutation_in _ (Permutation_sym Pm)) in Q. eauto.
      * intros j Q. destruct (B j Q) as (H1 & lb & H2 & H3). split; [right; apply (Permutation_in _ Pm); auto|]. destruct K as [_ K]. destruct (K _ _ H2) as (lb' & H4 & H5 & _). exists lb'. split; [auto|congruence].
Qed.

(** update_library_got after the library has been tracked *)
Lemma got_after ibs t m rest l p l' p' l1 i : track_library l m = Ok (l1, i) -> update_library_got e ibs t m rest (l, p) = Ok (l', p') ->
  l_table l' = l_table l1 /\ kept_recs l1 l' /\ (filter_func (p_filter p) m rest = Ok true -> cur l' (Some i)) /\ (cur l1 (Some i) -> p' = p).
Proof.
  intros T E. unfold update_library_got in E. rewrite T in E. cbn [bind] in E. destruct (filter_func (p_filter p) m rest) as [acc|] eqn:Ef; [|discriminate]. cbn [bind] in E.
  destruct acc; cbn [negb] in E; [|injection E as <- <-; split; [auto|]; split; [apply kept_refl|]; split; [discriminate|auto]].
  unfold deref in E at 1. destruct (nth_error (l_heap l1) i) as [lb|] eqn:El; [|discriminate]. cbn [bind] in E.
  destruct (Z.eqb_spec (lb_gen lb) (l_gen l1)) as [Eg|Ng].
  { injection E as <- <-. split; [auto|]. split; [apply kept_refl|]. split; [intros _; exists i, lb; auto|auto]. }
  iba E as [heap log1]. ib E. iba E as [mem log2]. injection E as <- <-. cbn [l_table l_heap l_gen].
  assert (Hheap : forall j x, nth_error (l_heap l1) j = Some x -> exists x', nth_error heap j = Some x' /\ lb_map x' = lb_map x /\ lb_gen x' = lb_gen x).
  { destruct (lb_writable lb); [injection B as <- _; eauto|]. iba B as calls. injection B as <- _. intros j x Hx. rewrite nth_error_upd. destruct (Nat.eqb i j); [|eauto]. rewrite Hx. cbn. eexists. split; [reflexivity|]. auto. }
  split; [auto|]. split; [|split].
  - split; [reflexivity|]. cbn [l_heap]. intros j x Hx. destruct (Hheap _ _ Hx) as (x' & Hx' & M & G). rewrite nth_error_upd. destruct (Nat.eqb i j); [rewrite Hx'; cbn; eexists; split; [reflexivity|]; cbn; auto|]. exists x'. auto.
  - intros _. destruct (Hheap _ _ El) as (x' & Hx' & _). exists i, (set_lgen (l_gen l1) x'). split; [auto|]. cbn [l_heap l_gen]. rewrite nth_error_upd, Nat.eqb_refl, Hx'. split; [reflexivity|]. reflexivity.
  - intros (j & x & Q & Hx & G). injection Q as <-. congruence.
Qed.

(** stores of a pass *)
Definition into (loaded : list lmap) (evs : list pevent) : Prop :=
  forall x v, In (PStore x v) evs -> exists m n, In m loaded /\ (m = a \/ hash m <> hash a) /\ slot relocs m n x.
Lemma got_other ibs t m rest l p l' p' o : sinv l o -> hash m <> hash a -> update_library_got e ibs t m rest (l, p) = Ok (l', p') ->
  sinv l' o /\ (cur l o -> cur l' o).
Proof.
  intros S Hh E. assert (T : exists l1 i, track_library l m = Ok (l1, i)). { unfold update_library_got in E. destruct (track_library l m) as [[l1 i]|]; [eauto|discriminate]. }
  destruct T as (l1 & i & T). destruct (sinv_track _ _ m _ _ S ltac:(tauto) T) as (o' & S1 & K1 & _ & _ & Eo). rewrite (Eo Hh) in S1.
  destruct (got_after _ _ _ _ _ _ _ _ _ _ T E) as (T2 & K2 & _). split; [eapply sinv_kept; eauto|]. intros C. eapply kept_cur; [exact K2|]. eapply kept_cur; eauto.
Qed.
Lemma got_owner ibs t rest l p l' p' o : sinv l o -> filter_func (p_filter p) a rest = Ok true -> update_library_got e ibs t a rest (l, p) = Ok (l', p') ->
  exists i, sinv l' (Some i) /\ cur l' (Some i).
Proof.
  intros S Hf E. assert (T : exists l1 i, track_library l a = Ok (l1, i)). { unfold update_library_got in E. destruct (track_library l a) as [[l1 i]|]; [eauto|discriminate]. }
  destruct T as (l1 & i & T). destruct (sinv_track _ _ a _ _ S ltac:(auto) T) as (o' & S1 & K1 & Eo & _). rewrite (Eo eq_refl) in S1.
  destruct (got_after _ _ _ _ _ _ _ _ _ _ T E) as (T2 & K2 & C & _). exists i. split; [eapply sinv_kept; eauto|auto].
Qed.
Lemma got_shadow ibs t m rest l p l' p' i : sinv l (Some i) -> cur l (Some i) -> hash m = hash a -> u64 (lm_ptr m) <= u64 (lm_ptr a) ->
  update_library_got e ibs t m rest (l, p) = Ok (l', p') -> sinv l' (Some i) /\ cur l' (Some i) /\ p' = p.
Proof.
  intros S C Hh Hp E. assert (T : track_library l m = Ok (l, i)). { unfold track_library. rewrite (sinv_lookup _ _ _ S Hh Hp). reflexivity. }
  destruct (got_after _ _ _ _ _ _ _ _ _ _ T E) as (T2 & K2 & _ & Ep). split; [eapply sinv_kept; eauto|]. split; [eapply kept_cur; eauto|auto].
Qed.

Lemma into_step loaded ibs t m rest l p l' p' evs p0 : In m loaded -> m = a \/ hash m <> hash a -> p_log p = p_log p0 ++ evs -> into loaded evs ->
  update_library_got e ibs t m rest (l, p) = Ok (l', p') -> exists evs', p_log p' = p_log p0 ++ evs' /\ into loaded evs'.
Proof.
  intros Hm Ha El Hi E. destruct (update_log_slots _ _ _ _ _ _ _ _ _ E) as (w & A & _ & H). exists (evs ++ w). split; [rewrite A, El, app_assoc; auto|].
  intros x v Hx. apply in_app_or in Hx. destruct Hx as [Hx|Hx]; [eauto|]. destruct (H _ _ Hx) as (n & Hn). eauto.
Qed.
Lemma gots_pre loaded ibs t rest : forall pre l p l' p' o p0 evs, (forall m, In m pre -> hash m <> hash a /\ In m loaded) -> sinv l o -> p_log p = p_log p0 ++ evs -> into loaded evs ->
  update_gots e ibs t (pre ++ rest) (l, p) = Ok (l', p') ->
  exists l1 p1 evs1, sinv l1 o /\ p_filter p1 = p_filter p /\ p_log p1 = p_log p0 ++ evs1 /\ into loaded evs1 /\ update_gots e ibs t rest (l1, p1) = Ok (l', p').
Proof.
  induction pre as [|m pre IH]; intros l p l' p' o p0 evs Hm S El Hi E; [exists l, p, evs; auto|]. cbn [app update_gots] in E. iba E as [l1 p1].
  destruct (Hm m (or_introl eq_refl)) as [Hh Hl]. destruct (got_other _ _ _ _ _ _ _ _ _ S Hh B) as [S1 _]. destruct (update_got_frame _ _ _ _ _ _ _ _ _ B) as [_ F1].
  destruct (into_step loaded _ _ _ _ _ _ _ _ _ _ Hl (or_intror Hh) El Hi B) as (evs1 & El1 & Hi1).
  destruct (IH l1 p1 l' p' o p0 evs1) as (l2 & p2 & evs2 & A & F & C & D & G); auto; [intros; apply Hm; right; auto|]. exists l2, p2, evs2. split; [auto|]. split; [congruence|]. auto.
Qed.
Lemma gots_rest loaded ibs t i : forall rest l p l' p' p0 evs, (forall m, In m rest -> In m loaded /\ (hash m = hash a -> u64 (lm_ptr m) <= u64 (lm_ptr a))) ->
  sinv l (Some i) -> cur l (Some i) -> p_log p = p_log p0 ++ evs -> into loaded evs -> update_gots e ibs t rest (l, p) = Ok (l', p') ->
  sinv l' (Some i) /\ exists evs', p_log p' = p_log p0 ++ evs' /\ into loaded evs'.
Proof.
  induction rest as [|m rest IH]; intros l p l' p' p0 evs Hm S C El Hi E; cbn [update_gots] in E; [injection E as <- <-; eauto|]. iba E as [l1 p1].
  destruct (Hm m (or_introl eq_refl)) as [Hl Hp]. assert (Hm' : forall m, In m rest -> In m loaded /\ (hash m = hash a -> u64 (lm_ptr m) <= u64 (lm_ptr a))) by (intros; apply Hm; right; auto).
  destruct (Z.eq_dec (hash m) (hash a)) as [Hh|Hh].
  - destruct (got_shadow _ _ _ _ _ _ _ _ _ S C Hh (Hp Hh) B) as (S1 & C1 & ->). eapply IH; eauto.
  - destruct (got_other _ _ _ _ _ _ _ _ _ S Hh B) as [S1 C1]. destruct (into_step loaded _ _ _ _ _ _ _ _ _ _ Hl (or_intror Hh) El Hi B) as (evs1 & El1 & Hi1). eapply IH; eauto.
Qed.
Lemma gots_share ibs t loaded l p l' p' o : shadows (p_filter p) loaded a -> sinv l o -> update_gots e ibs t loaded (l, p) = Ok (l', p') ->
  exists o' evs, sinv l' o' /\ p_log p' = p_log p ++ evs /\ into loaded evs.
Proof.
  intros (pre & rest & El & Ef & Hpre & Hrest) S E. rewrite El in E. assert (Nil : p_log p = p_log p ++ []) by (rewrite app_nil_r; auto).
  destruct (gots_pre loaded ibs t (a :: rest) pre l p l' p' o p []) as (l1 & p1 & evs1 & S1 & F1 & L1 & I1 & E1); auto.
  { intros m Hm. split; [auto|]. rewrite El. apply in_or_app. auto. }
  { intros x v []. }
  cbn [update_gots] in E1. iba E1 as [l2 p2]. rewrite <- F1 in Ef. destruct (got_owner _ _ _ _ _ _ _ _ S1 Ef B) as (i & S2 & C2).
  destruct (into_step loaded ibs t a rest l1 p1 l2 p2 evs1 p) as (evs2 & L2 & I2); auto; [rewrite El; apply in_elt|].
  destruct (gots_rest loaded ibs t i rest l2 p2 l' p' p evs2) as (S3 & evs3 & L3 & I3); auto; [|eauto].
  intros m Hm. split; [rewrite El; apply in_or_app; right; right; auto|auto].
Qed.
Lemma prep_pre n rest : forall pre l l' r o, (forall m, In m pre -> hash m <> hash a) -> sinv l o -> prepare_loop e (pre ++ rest) n l = Ok (l', r) ->
  (sinv l' o) \/ exists l1, sinv l1 o /\ prepare_loop e rest n l1 = Ok (l', r).
Proof.
  induction pre as [|m pre IH]; intros l l' r o Hm S E; [right; eauto|]. cbn [app prepare_loop] in E. iba E as [l1 i]. iba E as s.
  pose proof (Hm m (or_introl eq_refl)) as Hh. destruct (sinv_track _ _ m _ _ S ltac:(tauto) B) as (o' & S1 & _ & _ & _ & Eo). rewrite (Eo Hh) in S1.
  destruct s; [injection E as <- _; auto|]. eapply IH; [|exact S1|exact E]. intros; apply Hm; right; auto.
Qed.
Lemma prep_rest n i : forall rest l l' r, (forall m, In m rest -> hash m = hash a -> u64 (lm_ptr m) <= u64 (lm_ptr a)) -> sinv l (Some i) -> prepare_loop e rest n l = Ok (l', r) -> sinv l' (Some i).
Proof.
  induction rest as [|m rest IH]; intros l l' r Hm S E; cbn [prepare_loop] in E; [injection E as <- _; auto|]. iba E as [l1 j]. iba E as s.
  destruct (sinv_track l (Some i) m l1 j S) as (o' & S1 & _ & _ & Eo & _); [|auto|].
  { intros Hh. right. split; [discriminate|]. apply Hm; [left|]; auto. }
  rewrite (Eo ltac:(discriminate)) in S1. destruct s; [injection E as <- _; auto|]. eapply IH; [|exact S1|exact E]. intros; apply Hm; [right|]; auto.
Qed.
Lemma prep_share f loaded n l l' r o : shadows f loaded a -> sinv l o -> prepare_loop e loaded n l = Ok (l', r) -> exists o', sinv l' o'.
Proof.
  intros (pre & rest & El & _ & Hpre & Hrest) S E. rewrite El in E. destruct (prep_pre _ _ _ _ _ _ _ Hpre S E) as [S1|(l1 & S1 & E1)]; [eauto|].
  cbn [prepare_loop] in E1. iba E1 as [l2 i]. iba E1 as s. destruct (sinv_track _ _ a _ _ S1 ltac:(auto) B) as (o' & S2 & _ & Eo & _). rewrite (Eo eq_refl) in S2.
  destruct s; [injection E1 as <- _; eauto|]. exists (Some i). eapply prep_rest; eauto.
Qed.

Lemma last_filter_app l o : last_filter (l ++ [o]) = set_filter_last (last_filter l) o.
Proof. unfold last_filter. rewrite fold_left_app. reflexivity. Qed.

(** throughout a history *)
Definition shadow_hist (maps : list lmap) (ops : list op) : Prop := forall l1 l2, ops = l1 ++ l2 -> shadows (last_filter l1) (maps_after maps l1) a.
Lemma shadow_app maps ops o : shadow_hist maps (ops ++ [o]) -> shadow_hist maps ops.
Proof. intros H l1 l2 E. apply (H l1 (l2 ++ [o])). rewrite E, app_assoc. auto. Qed.
Definition share_log (maps : list lmap) (ops : list op) (log : list pevent) : Prop :=
  forall x v, In (PStore x v) log -> exists l1 l2 m n, ops = l1 ++ l2 /\ In m (maps_after maps l1) /\ (m = a \/ hash m <> hash a) /\ slot relocs m n x.
Lemma share_app maps ops o log : share_log maps ops log -> share_log maps (ops ++ [o]) log.
Proof. intros H x v Hx. destruct (H x v Hx) as (l1 & l2 & m & n & -> & R). exists l1, (l2 ++ [o]), m, n. rewrite app_assoc. auto. Qed.

Lemma run_share maps mem ops st rs : shadow_hist maps ops -> run e (init_state maps mem) ops = Ok (st, rs) ->
  (s_init st = true -> exists o, sinv (s_l st) o) /\ share_log maps ops (p_log (s_p st)).
Proof.
  intros SH E.
  destruct (lift e maps mem (fun l _ st => shadow_hist maps l -> p_filter (s_p st) = last_filter l /\ (s_init st = true -> exists o, sinv (s_l st) o) /\ share_log maps l (p_log (s_p st)))) with (ops := ops) (st := st) (rs := rs) as (_ & tr & L & _); auto.
  - intros _. split; [reflexivity|]. split; [discriminate|]. intros x v [].
  - intros l o tr st0 st' r L G Es HS. destruct (L (shadow_app _ _ _ HS)) as (F & S & K). rewrite last_filter_app.
    destruct o; cbn in G; try tauto; cbn in Es; injection Es as <- _; (split; [try exact F; reflexivity|]; split; [exact S|apply share_app; exact K]).
  - intros l o tr st0 L G HS. destruct (L (shadow_app _ _ _ HS)) as (F & S & K). rewrite last_filter_app. split; [|split; [auto|apply share_app; auto]].
    destruct o; cbn in G; try tauto; exact F.
  - intros l tr st0 st' L _ I I1 HS. destruct (L HS) as (F & S & K). destruct I as [->|(_ & _ & A & B & _ & T & EP & _)]; [auto|]. rewrite EP. split; [auto|]. split; [|auto]. intros _. exists None.
    destruct (create_spec (D := nat) (e_ps e) 128 link_map_hash link_map_cmp Hps ltac:(lia)) as (t & Et & It & _). rewrite T in Et. injection Et as Et. exists [], []. rewrite Et. split; [auto|]. split; [intros k i []|discriminate].
  - intros l tr st0 tr1 st' L EM I0 M HS. destruct (L HS) as (F & S & K). destruct (S I0) as (o & So).
    assert (Sh : shadows (p_filter (s_p st0)) (p_maps (s_p st0)) a) by (rewrite EM, F; apply (HS l []); rewrite app_nil_r; auto).
    destruct (mic_frame _ _ _ _ M) as (_ & _ & F'). split; [rewrite F'; exact F|].
    destruct M as [n k r Et|g|ibs t k p E0| |bs Sb|tool t ubs bs tbl Ht Eb]; try (split; [solve [eauto]|exact K]).
    + cbn [s_l s_p set_l]. split; [|exact K]. intros _. eapply prep_share; eauto.
    + cbn [s_l s_p set_p set_l]. destruct (gots_share _ _ _ _ _ _ _ _ Sh So E0) as (o' & evs & S1 & L1 & I1). split; [eauto|]. rewrite L1. intros x v Hx. apply in_app_or in Hx. destruct Hx as [Hx|Hx]; [eauto|].
      destruct (I1 x v Hx) as (m & n & H1 & H2 & H3). exists l, [], m, n. rewrite app_nil_r, <- EM. auto.
  - destruct (L SH) as (_ & A & B). auto.
Qed.

Lemma run_zero maps mem ops st rs : run e (init_state maps mem) ops = Ok (st, rs) -> s_init st = false -> l_table (s_l st) = zero_table.
Proof.
  intros E. destruct (lift e maps mem (fun _ _ st => s_init st = false -> l_table (s_l st) = zero_table)) with (ops := ops) (st := st) (rs := rs) as (_ & tr & L & _); auto.
  - intros l o tr st0 st' r L G Es. destruct o; cbn in G; try tauto; cbn in Es; injection Es as <- _; exact L.
  - intros l tr st0 st' L _ _ I. congruence.
  - intros l tr st0 tr1 st' L _ I M. destruct (mic_frame _ _ _ _ M) as (F & _). congruence.
Qed.

Lemma run_share_mem maps mem ops x : shadow_hist maps ops -> (forall l1 l2 m n, ops = l1 ++ l2 -> In m (maps_after maps l1) -> slot relocs m n x -> m <> a /\ hash m = hash a) ->
  forall st rs, run e (init_state maps mem) ops = Ok (st, rs) -> p_mem (s_p st) x = left_by ops x (mem x).
Proof.
  induction ops as [|o l IH] using rev_ind; intros SH Hx st rs E; [cbn in E; injection E as <- _; reflexivity|].
  destruct (run_end _ _ _ _ _ _ E) as (st0 & rs0 & r & E0 & E1). rewrite left_snoc.
  assert (H0 : p_mem (s_p st0) x = left_by l x (mem x)).
  { apply (IH (shadow_app _ _ _ SH)) with (rs := rs0); [|auto]. intros l1 l2 m n El. apply (Hx l1 (l2 ++ [o])). rewrite El, app_assoc. auto. }
  assert (D : gotcha_op o \/ ~ gotcha_op o) by (destruct o; cbn; tauto). destruct D as [G|G].
  - destruct (step_log _ _ _ _ _ G E1) as (evs & L & M). rewrite M, replay_none; [rewrite H0; destruct o; cbn in G; tauto|].
    intros v Hv. destruct (run_share maps mem (l ++ [o]) st rs SH E) as [_ K]. destruct (K x v) as (l1 & l2 & m & n & El & Hm & Ha & Hs); [rewrite L; apply in_or_app; auto|].
    destruct (Hx l1 l2 m n El Hm Hs) as [N1 N2]. tauto.
  - destruct o; cbn in G; try tauto; cbn in E1; injection E1 as <- _; try reflexivity. exact H0.
Qed.
End Share.
