(** Which pages are writable when GOTCHA stores to a slot: proofs for C65. *)
From Verif Require Import Base ListFacts HashModel HashProofs SpecHash HashTrace ElfModel SpecElf ElfProofs ToolModel CoreModel SpecCore SpecRun SpecSync SpecReg SpecWrit
  ToolProofs CoreMaps CoreRel CoreLib CoreStep CoreWrap CoreLoop CoreMain CoreEnv CoreSpec CoreFacts CoreHist CoreApi CoreApi2 CoreSync CoreSync2 CoreSync3 CoreMicro CoreMicro2 CoreProt.

(** *** what one library's update does to the log and to the marks *)
Section Exact.
Context (e : env) (all : list lmap) (HND : apart all) (HST : steady all).

Lemma track_exact l f m l' i : tinv all l f -> In m all -> track_library l m = Ok (l', i) ->
  exists f', tinv all l' f' /\ f' (key_of m) = Some i /\ (forall k j, f' k = Some j -> f k = Some j \/ k = key_of m) /\
    (forall m', marked l' f' m' <-> marked l f m').
Proof.
  intros T Hm E. destruct (track_tinv all HND l f m T Hm) as (l1 & i1 & f1 & E1 & T1 & Fi & Mo & Ma & Keep). rewrite E in E1. injection E1 as <- <-.
  assert (MM : forall m', marked l' f1 m' <-> marked l f m') by (intros m'; split; [eapply track_marked; eauto|eapply marked_track; eauto]).
  unfold track_library, get_library in E. rewrite (kmap_lookup _ _ _ (lcmp_ok all HND) _ lkey_eqb_ok _ _ _ (ti_map _ _ _ T) (lkeys_of all m Hm)) in E. cbn [bind] in E.
  exists f1. split; [auto|]. split; [auto|]. split; [|exact MM].
  intros k j Hk. destruct (f k) as [j0|] eqn:Q.
  - left. apply Mo in Q. congruence.
  - right. destruct (f (key_of m)) as [i0|] eqn:Ef.
    + injection E as <- <-. destruct (ti_rec _ _ _ T1 _ _ Hk) as (lb & L & _). destruct (ti_onto _ _ _ T _ _ L) as [k' K']. pose proof (Mo _ _ K') as K1. pose proof (ti_inj _ _ _ T1 _ _ _ Hk K1). congruence.
    + destruct (ti_rec _ _ _ T1 _ _ Hk) as (lb & L & _). unfold add_library in E. ib E. injection E as <- <-. cbn [l_heap] in L.
      destruct (le_lt_dec (length (l_heap l)) j) as [Hle|Hlt].
      * assert (j = length (l_heap l)).
        { apply nth_error_Some_lt in L. rewrite app_length in L. cbn in L. destruct (l_list l); [rewrite upd_length in L|]; lia. }
        subst j. eapply ti_inj; eauto.
      * exfalso. destruct (nth_error_lt_Some (l_heap l) j Hlt) as [y Y]. destruct (ti_onto _ _ _ T _ _ Y) as [k' K']. pose proof (Mo _ _ K') as K1. pose proof (ti_inj _ _ _ T1 _ _ _ Hk K1). congruence.
Qed.

Lemma update_exact ibs t m rest l p l' p' f : In m all -> tinv all l f -> update_library_got e ibs t m rest (l, p) = Ok (l', p') ->
  exists f', tinv all l' f' /\ (forall k j, f' k = Some j -> f k = Some j \/ k = key_of m) /\ p_maps p' = p_maps p /\
   ((p_log p' = p_log p /\ forall m', marked l' f' m' <-> marked l f m') \/
    (exists calls evs, p_log p' = p_log p ++ map PProtect calls ++ evs /\ protects evs = [] /\
      (forall x v, In (PStore x v) evs -> exists n, slot relocs m n x) /\
      (forall m', In m' all -> (marked l' f' m' <-> marked l f m' \/ m' = m)) /\
      ((marked l f m /\ calls = []) \/ (~ marked l f m /\ mark_got_writable (e_ps e) (e_phdrs e (p_maps p)) m = Ok calls)))).
Proof.
  intros Hm T E. unfold update_library_got in E. iba E as [l1 i]. destruct (track_exact l f m l1 i T Hm B) as (f1 & T1 & Fi & Mo & MM).
  ib E. destruct (negb a); [injection E as <- <-; exists f1; auto 10|]. iba E as lb. apply deref_inv in B1. destruct (_ =? _); [injection E as <- <-; exists f1; auto 10|].
  iba E as [heap log1]. iba E as rels. iba E as [mem log2]. injection E as <- <-. exists f1. cbn [p_log p_mem p_maps].
  assert (ML : marked l1 f1 m <-> lb_writable lb = true).
  { split; [intros (j & x & A & C & D); congruence|]. intros H. exists i, lb. auto. }
  assert (HP : exists calls, log1 = p_log p ++ map PProtect calls /\ length heap = length (l_heap l1) /\
     (forall j x, nth_error heap j = Some x -> exists y, nth_error (l_heap l1) j = Some y /\ lb_map x = lb_map y /\ lb_writable x = if Nat.eqb i j then true else lb_writable y) /\
     ((marked l1 f1 m /\ calls = []) \/ (~ marked l1 f1 m /\ mark_got_writable (e_ps e) (e_phdrs e (p_maps p)) m = Ok calls))).
  { destruct (lb_writable lb) eqn:Q.
    - injection B2 as <- <-. exists []. split; [rewrite app_nil_r; auto|]. split; [auto|]. split; [|left; split; [apply ML; auto|auto]]. intros j x H. exists x. split; [auto|]. split; [auto|]. destruct (Nat.eqb i j) eqn:Q2; [|auto]. apply Nat.eqb_eq in Q2. subst j. congruence.
    - iba B2 as calls. injection B2 as <- <-. exists calls. split; [auto|]. split; [apply upd_length|]. split; [|right; split; [rewrite ML; discriminate|auto]].
      intros j x H. rewrite nth_error_upd in H. destruct (Nat.eqb i j); [|exists x; auto]. destruct (nth_error (l_heap l1) j) as [y|]; [|discriminate H]. cbn in H. injection H as <-. exists y. auto. }
  destruct HP as (calls & -> & HL & HH & HC). set (h2 := upd heap i (set_lgen (l_gen l1))).
  assert (L2 : length h2 = length (l_heap l1)) by (unfold h2; rewrite upd_length; auto).
  assert (H2 : forall j x, nth_error h2 j = Some x -> exists y, nth_error (l_heap l1) j = Some y /\ lb_map x = lb_map y /\ lb_writable x = if Nat.eqb i j then true else lb_writable y).
  { intros j x H. unfold h2 in H. rewrite nth_error_upd in H. destruct (Nat.eqb i j) eqn:Q.
    - destruct (nth_error heap j) as [y|] eqn:Y; [|discriminate H]. cbn in H. injection H as <-. destruct (HH _ _ Y) as (z & Z1 & Z2 & Z3). rewrite Q in Z3. exists z. auto.
    - destruct (HH _ _ H) as (z & Z1 & Z2 & Z3). rewrite Q in Z3. exists z. auto. }
  assert (H2' : forall j y, nth_error (l_heap l1) j = Some y -> exists x, nth_error h2 j = Some x /\ lb_map x = lb_map y /\ lb_writable x = if Nat.eqb i j then true else lb_writable y).
  { intros j y H. destruct (nth_error_lt_Some h2 j) as [x X]; [rewrite L2; eapply nth_error_Some_lt; eauto|]. destruct (H2 _ _ X) as (y' & Y & Z). exists x. split; [auto|]. assert (y' = y) by congruence. subst y'. exact Z. }
  split; [|split; [exact Mo|split; [auto|right]]].
  { constructor; cbn [l_table l_heap]; try apply T1.
    - intros k j Hk. destruct (ti_rec _ _ _ T1 _ _ Hk) as (y & Y1 & Y2). destruct (H2' _ _ Y1) as (x & X1 & X2 & _). exists x. split; [auto|congruence].
    - intros j x H. destruct (H2 _ _ H) as (y & Y & _). eapply ti_onto; eauto. }
  assert (HE : exists evs, log2 = (p_log p ++ map PProtect calls) ++ evs /\ protects evs = [] /\ forall x v, In (PStore x v) evs -> exists n, slot relocs m n x).
  { destruct rels as [rs|]; [|injection B4 as <- <-; exists []; rewrite app_nil_r; cbn; split; [auto|]; split; [auto|]; intros x v []].
    destruct (ulb_slots _ _ _ _ _ _ _ _ B4) as (evs & A1 & A2 & A3 & A4). exists evs. split; [auto|]. split; [auto|]. intros x v H. destruct (A4 _ _ H) as (off & n & H1 & H3).
    exists n, off. split; [|auto]. unfold relocs. rewrite B3. auto. }
  destruct HE as (evs & -> & HE1 & HE2). exists calls, evs. rewrite <- app_assoc. split; [auto|]. split; [auto|]. split; [auto|]. split.
  - intros m' Hm'. rewrite <- MM. split.
    + intros (j & x & F1 & X1 & X2). cbn [l_heap] in X1. destruct (H2 _ _ X1) as (y & Y1 & _ & Y3). destruct (Nat.eqb_spec i j) as [->|N].
      * right. pose proof (ti_inj _ _ _ T1 _ _ _ F1 Fi) as K. apply HST in K; auto.
      * left. exists j, y. split; [auto|]. split; [auto|]. congruence.
    + intros [(j & y & F1 & Y1 & Y2)| ->].
      * destruct (H2' _ _ Y1) as (x & X1 & _ & X3). exists j, x. split; [auto|]. split; [auto|]. rewrite X3. destruct (Nat.eqb i j); auto.
      * destruct (H2' _ _ B1) as (x & X1 & _ & X3). rewrite Nat.eqb_refl in X3. exists i, x. auto.
  - rewrite <- MM. exact HC.
Qed.
End Exact.

(** *** permissions when all calls are granted *)
Lemma events_yes ps ans : (forall n, ans n = true) -> forall evs n w pg, events ps ans n w evs pg <-> w pg \/ covers ps (protects evs) pg.
Proof.
  intros Y. assert (C : forall c l pg, covers ps (c :: l) pg <-> covers ps [c] pg \/ covers ps l pg).
  { intros c l pg. unfold covers. split.
    - intros (a & n & [H|H] & H2); [left; exists a, n; cbn; auto|right; exists a, n; auto].
    - intros [(a & n & [H|[]] & H2)|(a & n & H & H2)]; exists a, n; cbn; auto. }
  induction evs as [|[c|x v] evs IH]; intros n w pg; cbn [events].
  - split; [auto|]. intros [H|(a & b & [] & _)]. exact H.
  - rewrite IH. cbn [event]. change (protects (PProtect c :: evs)) with (c :: protects evs). rewrite (C c (protects evs)). pose proof (Y n). tauto.
  - rewrite IH. change (protects (PStore x v :: evs)) with (protects evs). tauto.
Qed.
Lemma covers_app ps a b pg : covers ps (a ++ b) pg <-> covers ps a pg \/ covers ps b pg.
Proof.
  unfold covers. split.
  - intros (x & n & H & R). apply in_app_or in H. destruct H; [left|right]; eauto.
  - intros [(x & n & H & R)|(x & n & H & R)]; exists x, n; (split; [apply in_or_app|]); auto.
Qed.

Section Writ.
Context (k : Z) (Hk : 6 <= k < 63).
Notation ps := (2 ^ k).
Context (e : env) (Eps : e_ps e = ps) (ld : loader) (all : list lmap) (HND : apart all) (HST : steady all).

(** *** one operation: the list of libraries is [cur] *)
Section Op.
Context (cur : list lmap).
Notation infos := (e_phdrs e cur).
Context (Hall : forall m, In m cur -> In m all).
Context (Hdis : forall m m' pg, In m cur -> In m' cur -> ld_image ld m pg = true -> ld_image ld m' pg = true -> m = m').
Context (Hdesc : forall m, In m cur -> wf_dyn m (ld_dyn ld m) /\ lm_name m = Some (ld_name ld m) /\
    (dyn_get (ld_dyn ld m) DT_PLTGOT 0 <> 0 -> sane_got ps infos m (ld_dyn ld m) (ld_name ld m)) /\
    (forall pg, patchable ps ld infos m pg -> ld_image ld m pg = true)).
Context (Hslot : forall m n x pg, In m cur -> slot relocs m n x -> touches ps x pg -> ld_image ld m pg = true).

Lemma calls_of m calls : In m cur -> mark_got_writable ps infos m = Ok calls -> forall pg, covers ps calls pg <-> patchable ps ld infos m pg.
Proof.
  intros Hm E pg. destruct (Hdesc m Hm) as (W & Nm & S & _). destruct (Z.eq_dec (dyn_get (ld_dyn ld m) DT_PLTGOT 0) 0) as [Z0|NZ].
  - unfold mark_got_writable in E. rewrite (init_dynamic_wf _ _ W) in E. cbn [bind dv_of dv_got] in E. rewrite Z0 in E. cbn in E. injection E as <-. split.
    + intros (a & n & [] & _).
    + intros [NZ _]. contradiction.
  - destruct (S NZ) as (_ & _ & S1 & S2 & S3). destruct (mprotect_thm k infos m _ _ W ltac:(lia) Nm S1 S2 S3) as (c & Ec & _ & Hc). rewrite E in Ec. injection Ec as <-. rewrite Hc. unfold patchable, got_page. tauto.
Qed.

(** the pages of the loaded libraries are writable iff the loader left them so, or the library is marked and GOTCHA asked for them *)
Definition pages_ok (l : lstate) (f : lkey -> option nat) (w : perm) : Prop :=
  tinv all l f /\ (forall q i, f q = Some i -> exists m, In m all /\ key_of m = q) /\
  forall m pg, In m cur -> ld_image ld m pg = true -> (w pg <-> ld_rw ld m pg = true \/ (marked l f m /\ patchable ps ld infos m pg)).
Definition store_ok (w : perm) (evs : list pevent) : Prop :=
  forall e1 x v e2, evs = e1 ++ PStore x v :: e2 ->
  exists m n, In m cur /\ slot relocs m n x /\
    forall pg, touches ps x pg -> ((w pg \/ covers ps (protects e1) pg) <-> ld_rw ld m pg = true \/ patchable ps ld infos m pg).
Definition tracked_in (sn : list lmap) (f : lkey -> option nat) : Prop := forall q i, f q = Some i -> exists m, In m sn /\ key_of m = q.

Lemma store_ok_app w a b : store_ok w a -> store_ok (fun pg => w pg \/ covers ps (protects a) pg) b -> store_ok w (a ++ b).
Proof.
  intros A B e1 x v e2 E. destruct (app_eq_app _ _ _ _ E) as (l & [[-> E2]|[-> E2]]).
  - destruct l as [|ev l].
    + cbn in E2. destruct (B [] x v e2 (eq_sym E2)) as (m & n & H1 & H2 & H3). exists m, n. split; [auto|]. split; [auto|]. intros pg Hp. rewrite <- (H3 pg Hp).
      rewrite app_nil_r. cbn [protects flat_map]. split; [tauto|]. intros [H|(? & ? & [] & _)]. exact H.
    + cbn in E2. injection E2 as <- ->. apply (A e1 x v l eq_refl).
  - destruct (B l x v e2 E2) as (m & n & H1 & H2 & H3). exists m, n. split; [auto|]. split; [auto|]. intros pg Hp. rewrite <- (H3 pg Hp). rewrite protects_app, covers_app. tauto.
Qed.
Lemma pages_ext l f w w' : (forall pg, w pg <-> w' pg) -> pages_ok l f w -> pages_ok l f w'.
Proof. intros E (A & B & C). split; [auto|]. split; [auto|]. intros m pg H1 H2. rewrite <- E. auto. Qed.
Lemma pages_same l f l' f' w : tinv all l' f' -> (forall q i, f' q = Some i -> exists m, In m all /\ key_of m = q) -> (forall m', marked l' f' m' <-> marked l f m') -> pages_ok l f w -> pages_ok l' f' w.
Proof. intros T Q M (A & B & C). split; [auto|]. split; [auto|]. intros m pg H1 H2. rewrite M. auto. Qed.

Lemma update_pages sn ibs t m rest l p l' p' f w : In m cur -> In m sn -> p_maps p = cur -> pages_ok l f w -> tracked_in sn f -> update_library_got e ibs t m rest (l, p) = Ok (l', p') ->
  exists f' evs, p_log p' = p_log p ++ evs /\ p_maps p' = cur /\ tracked_in sn f' /\ pages_ok l' f' (fun pg => w pg \/ covers ps (protects evs) pg) /\ store_ok w evs.
Proof.
  intros Hm Hs EM P TS E. pose proof P as (T & Q & W).
  destruct (update_exact e all HND HST ibs t m rest l p l' p' f (Hall _ Hm) T E) as (f' & T' & Mo & EM' & H). exists f'.
  assert (TS' : tracked_in sn f') by (intros q i Hq; destruct (Mo _ _ Hq) as [H0| ->]; [eauto|exists m; auto]).
  assert (Q' : forall q i, f' q = Some i -> exists m0, In m0 all /\ key_of m0 = q) by (intros q i Hq; destruct (Mo _ _ Hq) as [H0| ->]; [eauto|exists m; auto]).
  destruct H as [(EL & MM)|(calls & evs & EL & PE & SE & MM & HC)].
  { exists []. rewrite app_nil_r. split; [auto|]. split; [congruence|]. split; [auto|]. split.
    - eapply pages_ext; [|eapply pages_same; eauto]. intros pg. cbn. split; [auto|]. intros [H|(? & ? & [] & _)]. exact H.
    - intros [|? ?] x v e2 H; discriminate H. }
  assert (PP : protects (map PProtect calls ++ evs) = calls) by (rewrite protects_app, protects_map, PE, app_nil_r; auto).
  assert (CV : forall pg, covers ps calls pg -> patchable ps ld infos m pg).
  { intros pg C. destruct HC as [[_ ->]|[_ HC]]; [destruct C as (? & ? & [] & _)|]. rewrite Eps, EM in HC. apply (calls_of m calls Hm HC). auto. }
  assert (VC : forall pg, ~ marked l f m -> patchable ps ld infos m pg -> covers ps calls pg).
  { intros pg N C. destruct HC as [[N' _]|[_ HC]]; [contradiction|]. rewrite Eps, EM in HC. apply (calls_of m calls Hm HC). auto. }
  assert (DM : marked l f m \/ ~ marked l f m) by (destruct HC as [[? _]|[? _]]; auto).
  (* after the calls the pages of [m] are right *)
  assert (WM : forall pg, ld_image ld m pg = true -> (w pg \/ covers ps calls pg <-> ld_rw ld m pg = true \/ patchable ps ld infos m pg)).
  { intros pg Hp. rewrite (W m pg Hm Hp). split; [intros [[H|[_ H]]|H]; auto|]. intros [H|H]; [auto|]. destruct DM as [D|D]; [left; right; auto|right; auto]. }
  exists (map PProtect calls ++ evs). split; [auto|]. split; [congruence|]. split; [auto|]. split.
  - split; [auto|]. split; [auto|]. intros m' pg Hm' Hp. rewrite PP. rewrite (MM m' (Hall _ Hm')).
    destruct (Hdesc m Hm) as (_ & _ & _ & HI). rewrite (W m' pg Hm' Hp). split.
    + intros [[H|[H1 H2]]|H]; [auto|right; auto|]. assert (m' = m) as -> by (eapply (Hdis m' m pg); auto). right. auto.
    + intros [H|[[H1| ->] H2]]; [auto|auto|]. destruct DM as [D|D]; [left; right; auto|right; auto].
  - intros e1 x v e2 Ee. destruct (app_eq_app _ _ _ _ Ee) as (q & [[E1 E2]|[E1 E2]]).
    + (* a store cannot be among the calls *)
      destruct q as [|ev q]; [|exfalso; cbn in E2; injection E2 as <- _; assert (H : In (PStore x v) (map PProtect calls)) by (rewrite E1; apply in_elt); apply in_map_iff in H; destruct H as (? & H & _); discriminate H].
      rewrite app_nil_r in E1. subst e1. cbn in E2. assert (HS : In (PStore x v) evs) by (rewrite <- E2; left; auto). destruct (SE _ _ HS) as (n & Hn).
      exists m, n. split; [auto|]. split; [auto|]. intros pg Hp. rewrite protects_map. apply WM. eapply Hslot; eauto.
    + assert (HS : In (PStore x v) evs) by (rewrite E2; apply in_elt). destruct (SE _ _ HS) as (n & Hn).
      exists m, n. split; [auto|]. split; [auto|]. intros pg Hp. assert (P1 : protects e1 = calls).
      { rewrite E1, protects_app, protects_map. assert (protects q = []) as ->; [|apply app_nil_r]. rewrite E2, protects_app in PE. apply app_eq_nil in PE. tauto. }
      rewrite P1. apply WM. eapply Hslot; eauto.
Qed.

Lemma mic_pages sn st tr st' f w : incl cur sn -> p_maps (s_p st) = cur -> pages_ok (s_l st) f w -> tracked_in sn f -> mic e st tr st' ->
  exists f' evs, p_log (s_p st') = p_log (s_p st) ++ evs /\ tracked_in sn f' /\ pages_ok (s_l st') f' (fun pg => w pg \/ covers ps (protects evs) pg) /\ store_ok w evs.
Proof.
  intros HS EM P TS M.
  assert (Nil : forall pg, w pg <-> w pg \/ covers ps (protects []) pg) by (intros pg; cbn; split; [auto|]; intros [H|(? & ? & [] & _)]; exact H).
  assert (SN : store_ok w []) by (intros [|? ?] x v e2 H; discriminate H).
  assert (Same : forall l0 f0, pages_ok l0 f0 w -> tracked_in sn f0 -> exists f' evs, p_log (s_p st) = p_log (s_p st) ++ evs /\ tracked_in sn f' /\ pages_ok l0 f' (fun pg => w pg \/ covers ps (protects evs) pg) /\ store_ok w evs).
  { intros l0 f0 P0 T0. exists f0, []. rewrite app_nil_r. split; [auto|]. split; [auto|]. split; [eapply pages_ext; eauto|auto]. }
  destruct M as [n l r E|g|ibs t l p E| |bs S|tool t ubs bs tbl Ht E]; try (apply (Same _ f); auto; fail).
  - cbn [s_l s_p set_l]. enough (H : exists f', pages_ok l f' w /\ tracked_in sn f') by (destruct H as (f' & H1 & H2); eauto).
    refine (prepare_ind e n (fun l => exists f', pages_ok l f' w /\ tracked_in sn f') _ _ _ [] _ _ _ eq_refl _ E); [|eauto].
    clear l r E. intros pre m rest l0 l1 i Em (f0 & P0 & T0) E. cbn [app] in Em. assert (Hm : In m cur) by (rewrite <- EM, Em; apply in_elt).
    destruct (track_exact all HND l0 f0 m l1 i (proj1 P0) (Hall _ Hm) E) as (f1 & T1 & Fi & Mo & MM). exists f1. split.
    + eapply pages_same; [exact T1| |exact MM|exact P0]. intros q j Hq. destruct (Mo _ _ Hq) as [H0| ->]; [eapply (proj1 (proj2 P0)); eauto|exists m; auto].
    + intros q j Hq. destruct (Mo _ _ Hq) as [H0| ->]; [eauto|exists m; auto].
  - cbn [s_l s_p set_l]. apply (Same _ f); [|auto]. destruct P as ([T1 T2 T3 T4] & P2 & P3). split; [constructor; auto|]. split; [auto|exact P3].
  - cbn [s_l s_p set_p set_l].
    enough (H : (exists f' evs, p_log p = p_log (s_p st) ++ evs /\ tracked_in sn f' /\ pages_ok l f' (fun pg => w pg \/ covers ps (protects evs) pg) /\ store_ok w evs) /\ p_maps p = cur) by tauto.
    refine (update_gots_ind e ibs t (fun l p => (exists f' evs, p_log p = p_log (s_p st) ++ evs /\ tracked_in sn f' /\ pages_ok l f' (fun pg => w pg \/ covers ps (protects evs) pg) /\ store_ok w evs) /\ p_maps p = cur) _ _ _ [] _ _ _ _ eq_refl eq_refl _ E).
    + intros pre m rest l1 p1 l2 p2 Em Ep ((f1 & v1 & A1 & B1 & C1 & D1) & F1) E1. cbn [app] in Em.
      assert (Hm : In m cur) by (rewrite <- EM, Em; apply in_elt).
      destruct (update_pages sn ibs t m rest _ _ _ _ f1 _ Hm (HS _ Hm) F1 C1 B1 E1) as (f2 & v2 & A2 & F2 & B2 & C2 & D2).
      split; [|auto]. exists f2, (v1 ++ v2). split; [rewrite A2, A1, app_assoc; auto|]. split; [auto|]. split.
      * eapply pages_ext; [|exact C2]. intros pg. rewrite protects_app, covers_app. tauto.
      * apply store_ok_app; auto.
    + split; [|auto]. exists f, []. rewrite app_nil_r. split; [auto|]. split; [auto|]. split; [eapply pages_ext; eauto|auto].
Qed.
Lemma mics_pages sn tr st st' : mics e tr st st' -> forall f w, incl cur sn -> p_maps (s_p st) = cur -> pages_ok (s_l st) f w -> tracked_in sn f ->
  exists f' evs, p_log (s_p st') = p_log (s_p st) ++ evs /\ tracked_in sn f' /\ pages_ok (s_l st') f' (fun pg => w pg \/ covers ps (protects evs) pg) /\ store_ok w evs.
Proof.
  induction 1 as [st|tr1 tr2 st st1 st2 M _ IH]; intros f w HS EM P TS.
  - exists f, []. rewrite app_nil_r. split; [auto|]. split; [auto|]. split; [|intros [|? ?] x v e2 H; discriminate H]. eapply pages_ext; [|exact P].
    intros pg; cbn; split; [auto|]; intros [H|(? & ? & [] & _)]; exact H.
  - destruct (mic_pages sn _ _ _ f w HS EM P TS M) as (f1 & v1 & A1 & B1 & C1 & D1). destruct (mic_frame _ _ _ _ M) as (_ & F & _).
    destruct (IH f1 _ HS ltac:(congruence) C1 B1) as (f2 & v2 & A2 & B2 & C2 & D2). exists f2, (v1 ++ v2). split; [rewrite A2, A1, app_assoc; auto|]. split; [auto|]. split.
    + eapply pages_ext; [|exact C2]. intros pg. rewrite protects_app, covers_app. tauto.
    + apply store_ok_app; auto.
Qed.
End Op.
End Writ.
