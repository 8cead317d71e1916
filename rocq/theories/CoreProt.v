(** mprotect over whole histories: a library whose slots are rewritten has had its GOT made writable. *)
From Verif Require Import Base ListFacts HashModel HashProofs SpecHash HashTrace ElfModel SpecElf ElfProofs ToolModel CoreModel SpecCore SpecRun SpecSync SpecReg
  ToolProofs CoreMaps CoreRel CoreLib CoreStep CoreWrap CoreLoop CoreMain CoreEnv CoreSpec CoreFacts CoreHist CoreApi CoreApi2 CoreSync CoreSync2 CoreSync3 CoreMicro CoreMicro2.

(** the memory after the stores of a log *)
Definition replay (mem : Z -> Z) (evs : list pevent) : Z -> Z :=
  fold_left (fun mem ev => match ev with PStore x v => fupd mem x v | PProtect _ => mem end) evs mem.
Lemma replay_app mem a b : replay mem (a ++ b) = replay (replay mem a) b.
Proof. apply fold_left_app. Qed.
Lemma replay_protects calls : forall mem, replay mem (map PProtect calls) = mem.
Proof. induction calls as [|c r IH]; intros mem; [reflexivity|]. exact (IH mem). Qed.
Lemma replay_change evs : forall mem x, replay mem evs x = mem x \/ In (PStore x (replay mem evs x)) evs.
Proof.
  induction evs as [|[c|y v] evs IH] using rev_ind; intros mem x; [auto| |]; rewrite replay_app; cbn [replay fold_left].
  - destruct (IH mem x) as [H|H]; [auto|]. right. apply in_or_app. auto.
  - unfold fupd. destruct (Z.eqb_spec x y) as [->|_].
    + right. apply in_or_app. right. left. auto.
    + destruct (IH mem x) as [H|H]; [auto|]. right. apply in_or_app. auto.
Qed.
Lemma protects_app a b : protects (a ++ b) = protects a ++ protects b.
Proof. apply flat_map_app. Qed.
Lemma protects_map calls : protects (map PProtect calls) = calls.
Proof. induction calls; cbn; [auto|]. unfold protects in IHcalls. rewrite IHcalls. auto. Qed.

(** every store of [evs], performed after the events [log], satisfies [P] of the events before it *)
Fixpoint guard (P : list pevent -> Z -> Prop) (log evs : list pevent) : Prop :=
  match evs with
  | [] => True
  | ev :: r => match ev with PStore x _ => P log x | PProtect _ => True end /\ guard P (log ++ [ev]) r
  end.
Lemma guard_app P : forall a log b, guard P log a -> guard P (log ++ a) b -> guard P log (a ++ b).
Proof.
  induction a as [|ev a IH]; intros log b A B; cbn [app]; [rewrite app_nil_r in B; auto|]. destruct A as [A1 A2]. split; [auto|]. apply IH; [auto|].
  rewrite <- app_assoc. auto.
Qed.
Lemma guard_protects P calls : forall log, guard P log (map PProtect calls).
Proof. induction calls; intros log; cbn; auto. Qed.
Lemma guard_all (P : list pevent -> Z -> Prop) : forall evs log, (forall pre x v, In (PStore x v) evs -> (exists suf, pre = log ++ suf) -> P pre x) -> guard P log evs.
Proof.
  induction evs as [|ev evs IH]; intros log H; cbn; [auto|]. split.
  - destruct ev; [auto|]. apply (H log x v); [left; auto|]. exists []. rewrite app_nil_r. auto.
  - apply IH. intros pre x v Hi (suf & ->). apply (H _ x v); [right; auto|]. rewrite <- app_assoc. eauto.
Qed.
Lemma guard_incl (P Q : list pevent -> Z -> Prop) : (forall pre x, P pre x -> Q pre x) -> forall evs log, guard P log evs -> guard Q log evs.
Proof. intros H. induction evs as [|ev evs IH]; intros log G; cbn in *; [auto|]. destruct G as [A B]. split; [destruct ev; auto|auto]. Qed.
Lemma guard_elim P : forall e1 log x v e2, guard P log (e1 ++ PStore x v :: e2) -> P (log ++ e1) x.
Proof.
  induction e1 as [|ev e1 IH]; intros log x v e2 G; cbn [app guard] in G; [rewrite app_nil_r; apply G|]. destruct G as [_ G]. apply IH in G. rewrite <- app_assoc in G. exact G.
Qed.

(** only slots of the relocation table are written *)
Lemma ulb_slots ibs addr t : forall rels mem log mem' log', update_lib_bindings ibs addr t rels mem log = Ok (mem', log') ->
  exists evs, log' = log ++ evs /\ mem' = replay mem evs /\ protects evs = [] /\
    forall x v, In (PStore x v) evs -> exists off n, In (off, n) rels /\ x = u64 (addr + off).
Proof.
  induction rels as [|[off n] rels IH]; intros mem log mem' log' E; cbn [update_lib_bindings] in E.
  { injection E as <- <-. exists []. rewrite app_nil_r. split; [auto|]. split; [auto|]. split; [auto|]. intros x v []. }
  iba E as o. destruct o as [b|].
  - ib E. destruct (IH _ _ _ _ E) as (evs & A & B' & C & H). exists (PStore (u64 (addr + off)) (ub_wrapper (ib_user a)) :: evs).
    rewrite <- app_assoc in A. split; [exact A|]. split; [exact B'|]. split; [exact C|]. intros x v [Q|Q].
    + injection Q as <- <-. exists off, n. split; [left; auto|auto].
    + destruct (H _ _ Q) as (o' & n' & H1 & H2). exists o', n'. split; [right; auto|auto].
  - destruct (IH _ _ _ _ E) as (evs & A & B' & C & H). exists evs. split; [auto|]. split; [auto|]. split; [auto|].
    intros x v Q. destruct (H _ _ Q) as (o' & n' & H1 & H2). exists o', n'. split; [right; auto|auto].
Qed.

Section Prot.
Context (e : env) (all : list lmap) (HND : apart all) (HST : steady all).
Notation lkm := (kmap (lkeys all) link_map_hash link_map_cmp lkey_eqb).

(** every library of [all] that is tracked has a record of its own *)
Record tinv (l : lstate) (f : lkey -> option nat) : Prop := {
  ti_map : lkm (l_table l) f;
  ti_rec : forall k i, f k = Some i -> exists lb, nth_error (l_heap l) i = Some lb /\ lb_map lb = fst k;
  ti_inj : forall k k' i, f k = Some i -> f k' = Some i -> k = k';
  ti_onto : forall i lb, nth_error (l_heap l) i = Some lb -> exists k, f k = Some i }.

(** the records of [h'] are those of [h], with the same marks, and new unmarked ones *)
Definition marks (h h' : list library) : Prop :=
  forall i lb, nth_error h' i = Some lb -> (exists lb0, nth_error h i = Some lb0 /\ lb_writable lb = lb_writable lb0) \/ ((length h <= i)%nat /\ lb_writable lb = false).

Lemma track_tinv l f m : tinv l f -> In m all ->
  exists l' i f', track_library l m = Ok (l', i) /\ tinv l' f' /\ f' (key_of m) = Some i /\ (forall k j, f k = Some j -> f' k = Some j) /\ marks (l_heap l) (l_heap l') /\
    (forall j lb, nth_error (l_heap l) j = Some lb -> exists lb', nth_error (l_heap l') j = Some lb' /\ lb_writable lb' = lb_writable lb).
Proof.
  intros [L1 L2 L3 L4] Hm. unfold track_library, get_library.
  rewrite (kmap_lookup _ _ _ (lcmp_ok all HND) _ lkey_eqb_ok _ _ _ L1 (lkeys_of all m Hm)). cbn [bind].
  destruct (f (key_of m)) as [i|] eqn:Ef.
  - exists l, i, f. split; [reflexivity|]. split; [constructor; auto|]. split; [auto|]. split; [auto|]. split; [intros j lb H; left; eauto|eauto].
  - unfold add_library.
    destruct (kmap_add _ _ _ (lcmp_ok all HND) _ lkey_eqb_ok _ _ (key_of m) (length (l_heap l)) L1 (lkeys_of all m Hm) Ef) as (t & Et & Lt).
    rewrite Et. cbn [bind]. eexists _, _, _. split; [reflexivity|].
    set (h := match l_list l with Some h => upd (l_heap l) h (set_lprev (Some (length (l_heap l)))) | None => l_heap l end).
    set (nl := mkLibr (lm_ptr m) (l_list l) None 0 false).
    assert (Eh : length h = length (l_heap l)) by (unfold h; destruct (l_list l); [apply upd_length|reflexivity]).
    assert (Hh : forall i lb, nth_error h i = Some lb -> exists lb0, nth_error (l_heap l) i = Some lb0 /\ lb_writable lb = lb_writable lb0 /\ lb_map lb = lb_map lb0).
    { intros i lb. unfold h. destruct (l_list l) as [j|]; [|eauto]. rewrite nth_error_upd. destruct (Nat.eqb j i); [|eauto]. destruct (nth_error (l_heap l) i) as [y|]; [|discriminate]. cbn.
      intros H. injection H as <-. exists y. auto. }
    assert (Hh' : forall i lb0, nth_error (l_heap l) i = Some lb0 -> exists lb, nth_error h i = Some lb /\ lb_writable lb = lb_writable lb0 /\ lb_map lb = lb_map lb0).
    { intros i lb0 Hi. destruct (nth_error_lt_Some h i) as [lb Hlb]; [rewrite Eh; eapply nth_error_Some_lt; eauto|]. destruct (Hh _ _ Hlb) as (lb1 & A & B).
      exists lb. split; [auto|]. congruence. }
    assert (Hlt : forall k i, f k = Some i -> (i < length (l_heap l))%nat).
    { intros k i Hk. destruct (L2 _ _ Hk) as (lb & A & _). eapply nth_error_Some_lt; eauto. }
    assert (Hnew : nth_error (h ++ [nl]) (length (l_heap l)) = Some nl).
    { rewrite nth_error_app2 by lia. rewrite Eh, Nat.sub_diag. reflexivity. }
    assert (Hk : forall k, kupd lkey_eqb f (key_of m) (Some (length (l_heap l))) k = if lkey_eqb k (key_of m) then Some (length (l_heap l)) else f k) by reflexivity.
    assert (Hin : forall i lb, nth_error (h ++ [nl]) i = Some lb -> (exists lb0, nth_error (l_heap l) i = Some lb0 /\ lb_writable lb = lb_writable lb0) \/ (i = length (l_heap l) /\ lb_writable lb = false)).
    { intros i lb Hi. destruct (le_lt_dec (length h) i) as [Hle|Hlt'].
      - rewrite nth_error_app2 in Hi by auto. right. destruct (i - length h)%nat as [|k] eqn:Q; [injection Hi as <-; split; [lia|auto]|destruct k; discriminate].
      - rewrite nth_error_app1 in Hi by auto. destruct (Hh _ _ Hi) as (lb0 & A & B & _). left. eauto. }
    assert (Hnm : forall k i, f k = Some i -> lkey_eqb k (key_of m) = false).
    { intros k i H. destruct (lkey_eqb k (key_of m)) eqn:E; [|auto]. apply lkey_eqb_ok in E. congruence. }
    split; [constructor; cbn [l_table l_heap]|].
    + exact Lt.
    + intros k i. rewrite Hk. destruct (lkey_eqb k (key_of m)) eqn:E; intros Hki.
      * injection Hki as <-. exists nl. split; [auto|]. apply lkey_eqb_ok in E. subst k. reflexivity.
      * destruct (L2 _ _ Hki) as (lb0 & A & B). destruct (Hh' _ _ A) as (lb & C & _ & D). exists lb. split; [|congruence].
        rewrite nth_error_app1; [auto|]. rewrite Eh. eauto.
    + intros k k' i. rewrite !Hk. destruct (lkey_eqb k (key_of m)) eqn:E; destruct (lkey_eqb k' (key_of m)) eqn:E'; intros A B.
      * apply lkey_eqb_ok in E. apply lkey_eqb_ok in E'. congruence.
      * injection A as <-. apply Hlt in B. lia.
      * injection B as <-. apply Hlt in A. lia.
      * eauto.
    + intros i lb Hi. destruct (Hin _ _ Hi) as [(lb0 & A & _)|[-> _]].
      * destruct (L4 _ _ A) as [k K]. exists k. rewrite Hk. rewrite (Hnm _ _ K). auto.
      * exists (key_of m). rewrite Hk, (proj2 (lkey_eqb_ok _ _) eq_refl). auto.
    + cbn [l_heap]. split; [rewrite Hk; rewrite (proj2 (lkey_eqb_ok _ _) eq_refl); reflexivity|]. split; [intros k j Hj; rewrite Hk, (Hnm _ _ Hj); auto|]. split.
      * intros i lb Hi. destruct (Hin _ _ Hi) as [|[-> W]]; [auto|right; auto].
      * intros j lb Hj. destruct (Hh' _ _ Hj) as (lb' & C & D & _). exists lb'. split; [rewrite nth_error_app1; [auto|eapply nth_error_Some_lt; eauto]|auto].
Qed.

(** [m] is marked writable *)
Definition marked (l : lstate) (f : lkey -> option nat) (m : lmap) : Prop := exists i lb, f (key_of m) = Some i /\ nth_error (l_heap l) i = Some lb /\ lb_writable lb = true.
(** the pages of [m] have been made writable, with the program headers of some link map list in [D] *)
Definition prot_done (D : list lmap -> Prop) (prot : list (Z * Z)) (m : lmap) : Prop :=
  exists maps0 calls, D maps0 /\ In m maps0 /\ mark_got_writable (e_ps e) (e_phdrs e maps0) m = Ok calls /\ incl calls prot.
Definition winv (D : list lmap -> Prop) (l : lstate) (prot : list (Z * Z)) (f : lkey -> option nat) : Prop :=
  tinv l f /\ forall m, In m all -> marked l f m -> prot_done D prot m.

Lemma prot_incl D prot prot' m : incl prot prot' -> prot_done D prot m -> prot_done D prot' m.
Proof. intros I (maps0 & calls & A & B & C & H). exists maps0, calls. split; [auto|]. split; [auto|]. split; [auto|]. eapply incl_tran; eauto. Qed.

Lemma track_marked l f l' f' m' : tinv l f -> tinv l' f' -> (forall k j, f k = Some j -> f' k = Some j) -> marks (l_heap l) (l_heap l') -> marked l' f' m' -> marked l f m'.
Proof.
  intros T T' Mo Ma (i & lb & A & B & C). destruct (Ma _ _ B) as [(lb0 & H0 & E)|[_ E]]; [|congruence]. destruct (ti_onto _ _ T _ _ H0) as [k K].
  pose proof (ti_inj _ _ T' _ _ _ (Mo _ _ K) A) as Q. subst k. exists i, lb0. split; [auto|]. split; [auto|]. congruence.
Qed.
Lemma marked_track l f l' f' m' : (forall k j, f k = Some j -> f' k = Some j) ->
  (forall j lb, nth_error (l_heap l) j = Some lb -> exists lb', nth_error (l_heap l') j = Some lb' /\ lb_writable lb' = lb_writable lb) -> marked l f m' -> marked l' f' m'.
Proof. intros Mo H (i & lb & A & B & C). destruct (H _ _ B) as (lb' & B' & E). exists i, lb'. split; [auto|]. split; [auto|]. congruence. Qed.

Lemma update_winv (D : list lmap -> Prop) ibs t pre m rest l p l' p' f : p_maps p = pre ++ m :: rest -> D (p_maps p) -> (forall m', In m' (p_maps p) -> In m' all) ->
  winv D l (p_prot p) f -> update_library_got e ibs t m rest (l, p) = Ok (l', p') ->
  exists f', winv D l' (p_prot p') f' /\ (forall m', marked l f m' -> marked l' f' m') /\
    (exists evs, p_log p' = p_log p ++ evs /\ p_mem p' = replay (p_mem p) evs /\
       guard (fun pre x => prot_done D (protects pre) m /\ exists n, slot relocs m n x) (p_log p) evs).
Proof.
  intros EM HD Hall [T W] E. unfold update_library_got in E. assert (Hm : In m (p_maps p)) by (rewrite EM; apply in_elt).
  destruct (track_tinv l f m T (Hall _ Hm)) as (l1 & i & f1 & E1 & T1 & Fi & Mo & Ma & Keep). rewrite E1 in E. cbn [bind] in E.
  assert (W1 : winv D l1 (p_prot p) f1) by (split; [auto|]; intros m' H' M'; apply W; [auto|]; eapply track_marked; eauto).
  assert (K1 : forall m', marked l f m' -> marked l1 f1 m') by (intros; eapply marked_track; eauto).
  assert (N : exists evs, p_log p = p_log p ++ evs /\ p_mem p = replay (p_mem p) evs /\ guard (fun pre x => prot_done D (protects pre) m /\ exists n, slot relocs m n x) (p_log p) evs).
  { exists []. rewrite app_nil_r. cbn. auto. }
  ib E. destruct (negb a); [injection E as <- <-; exists f1; auto 10|]. iba E as lb. apply deref_inv in B0. destruct (_ =? _); [injection E as <- <-; exists f1; auto 10|].
  iba E as [heap log1]. iba E as rels. iba E as [mem log2]. injection E as <- <-. exists f1. cbn [p_log p_mem]. unfold p_prot at 1. cbn [p_log].
  set (prot := protects log1).
  assert (HP : length heap = length (l_heap l1) /\ incl (p_prot p) prot /\ (forall j x, nth_error heap j = Some x -> exists y, nth_error (l_heap l1) j = Some y /\ lb_map x = lb_map y /\ lb_writable x = if Nat.eqb i j then true else lb_writable y) /\
    (lb_writable lb = false -> prot_done D prot m) /\
    exists calls, log1 = p_log p ++ map PProtect calls).
  { destruct (lb_writable lb) eqn:Q.
    - injection B1 as <- <-. split; [auto|]. split; [apply incl_refl|]. split; [|split; [discriminate|exists []; rewrite app_nil_r; auto]]. intros j x H. exists x. split; [auto|]. split; [auto|]. destruct (Nat.eqb i j) eqn:Q2; [|auto]. apply Nat.eqb_eq in Q2. subst j. congruence.
    - iba B1 as calls. injection B1 as <- <-. unfold prot. rewrite protects_app, protects_map. fold (p_prot p). split; [apply upd_length|]. split; [apply incl_appl, incl_refl|]. split; [|split; [|eauto]].
      + intros j x H. rewrite nth_error_upd in H. destruct (Nat.eqb i j); [|exists x; auto]. destruct (nth_error (l_heap l1) j) as [y|]; [|discriminate H]. cbn in H. injection H as <-. exists y. auto.
      + intros _. exists (p_maps p), calls. split; [auto|]. split; [auto|]. split; [auto|]. apply incl_appr, incl_refl. }
  destruct HP as (HL & HI & HH & HD1 & calls & HC). set (h2 := upd heap i (set_lgen (l_gen l1))).
  assert (L2 : length h2 = length (l_heap l1)) by (unfold h2; rewrite upd_length; auto).
  assert (H2 : forall j x, nth_error h2 j = Some x -> exists y, nth_error (l_heap l1) j = Some y /\ lb_map x = lb_map y /\ lb_writable x = if Nat.eqb i j then true else lb_writable y).
  { intros j x H. unfold h2 in H. rewrite nth_error_upd in H. destruct (Nat.eqb i j) eqn:Q.
    - destruct (nth_error heap j) as [y|] eqn:Y; [|discriminate H]. cbn in H. injection H as <-. destruct (HH _ _ Y) as (z & Z1 & Z2 & Z3). rewrite Q in Z3. exists z. auto.
    - destruct (HH _ _ H) as (z & Z1 & Z2 & Z3). rewrite Q in Z3. exists z. auto. }
  assert (H2' : forall j y, nth_error (l_heap l1) j = Some y -> exists x, nth_error h2 j = Some x /\ lb_map x = lb_map y /\ lb_writable x = if Nat.eqb i j then true else lb_writable y).
  { intros j y H. destruct (nth_error_lt_Some h2 j) as [x X]; [rewrite L2; eapply nth_error_Some_lt; eauto|]. destruct (H2 _ _ X) as (y' & Y & Z). exists x. split; [auto|]. assert (y' = y) by congruence. subst y'. exact Z. }
  assert (T2 : tinv (mkLS (l_table l1) h2 (l_list l1) (l_gen l1)) f1).
  { constructor; cbn [l_table l_heap]; try apply T1.
    - intros k j Hk. destruct (ti_rec _ _ T1 _ _ Hk) as (y & Y1 & Y2). destruct (H2' _ _ Y1) as (x & X1 & X2 & _). exists x. split; [auto|congruence].
    - intros j x H. destruct (H2 _ _ H) as (y & Y & _). eapply ti_onto; eauto. }
  assert (Mm : marked (mkLS (l_table l1) h2 (l_list l1) (l_gen l1)) f1 m).
  { destruct (H2' _ _ B0) as (x & X1 & _ & X3). rewrite Nat.eqb_refl in X3. exists i, x. auto. }
  assert (HW : forall m', In m' all -> marked (mkLS (l_table l1) h2 (l_list l1) (l_gen l1)) f1 m' -> prot_done D prot m').
  { intros m' Hm' (j & x & F1 & X1 & X2). cbn [l_heap] in X1. destruct (H2 _ _ X1) as (y & Y1 & _ & Y3). destruct (Nat.eqb i j) eqn:Q.
    + apply Nat.eqb_eq in Q. subst j. pose proof (ti_inj _ _ T1 _ _ _ F1 Fi) as K. apply HST in K; [|auto|auto]. subst m'.
      destruct (lb_writable lb) eqn:Q; [|auto]. eapply prot_incl; [exact HI|]. apply W1; [auto|]. exists i, lb. auto.
    + eapply prot_incl; [exact HI|]. apply W1; [auto|]. exists j, y. split; [auto|]. split; [auto|]. congruence. }
  assert (HE : exists evs, log2 = log1 ++ evs /\ mem = replay (p_mem p) evs /\ protects evs = [] /\ forall x v, In (PStore x v) evs -> exists n, slot relocs m n x).
  { destruct rels as [rs|]; [|injection B3 as <- <-; exists []; rewrite app_nil_r; cbn; split; [auto|]; split; [auto|]; split; [auto|]; intros x v []].
    destruct (ulb_slots _ _ _ _ _ _ _ _ B3) as (evs & A1 & A2 & A3 & A4). exists evs. split; [auto|]. split; [auto|]. split; [auto|]. intros x v H. destruct (A4 _ _ H) as (off & n & H1 & H3).
    exists n, off. split; [|auto]. unfold relocs. rewrite B2. auto. }
  destruct HE as (evs & -> & -> & HE1 & HE2).
  split; [split; [exact T2|]|split].
  - unfold p_prot. cbn [p_log]. rewrite protects_app, HE1, app_nil_r. exact HW.
  - intros m' M'. destruct (K1 _ M') as (j & y & F1 & Y1 & Y2). destruct (H2' _ _ Y1) as (x & X1 & _ & X3). exists j, x. split; [auto|]. split; [auto|]. rewrite X3. destruct (Nat.eqb i j); auto.
  - exists (map PProtect calls ++ evs). rewrite app_assoc, <- HC. split; [auto|]. split; [rewrite replay_app, replay_protects; auto|].
    apply guard_app; [apply guard_protects|]. rewrite <- HC. apply guard_all. intros q x v Hx (suf & ->). split; [|eauto].
    eapply prot_incl; [|apply HW; [apply Hall; auto|exact Mm]]. rewrite protects_app. apply incl_appl, incl_refl.
Qed.

(** small steps *)
Lemma mic_winv (D : list lmap -> Prop) st tr st' f : D (p_maps (s_p st)) -> (forall m', In m' (p_maps (s_p st)) -> In m' all) ->
  winv D (s_l st) (p_prot (s_p st)) f -> mic e st tr st' ->
  exists f', winv D (s_l st') (p_prot (s_p st')) f' /\ (forall m', marked (s_l st) f m' -> marked (s_l st') f' m') /\
    (exists evs, p_log (s_p st') = p_log (s_p st) ++ evs /\ p_mem (s_p st') = replay (p_mem (s_p st)) evs /\
       guard (fun pre x => exists m n, In m (p_maps (s_p st)) /\ slot relocs m n x /\ prot_done D (protects pre) m) (p_log (s_p st)) evs).
Proof.
  intros HD Hall W M.
  assert (N : exists evs, p_log (s_p st) = p_log (s_p st) ++ evs /\ p_mem (s_p st) = replay (p_mem (s_p st)) evs /\
       guard (fun pre x => exists m n, In m (p_maps (s_p st)) /\ slot relocs m n x /\ prot_done D (protects pre) m) (p_log (s_p st)) evs).
  { exists []. rewrite app_nil_r. cbn. auto. }
  destruct M as [n l r E|g|ibs t l p E| |bs S|tool t ubs bs tbl Ht E]; try (exists f; split; [exact W|]; split; [auto|exact N]).
  - cbn [s_l s_p set_l]. enough (H : exists f', winv D l (p_prot (s_p st)) f' /\ (forall m', marked (s_l st) f m' -> marked l f' m')) by (destruct H as (f' & H1 & H2); eauto).
    refine (prepare_ind e n (fun l => exists f', winv D l (p_prot (s_p st)) f' /\ (forall m', marked (s_l st) f m' -> marked l f' m')) _ _ _ [] _ _ _ eq_refl _ E); [|eauto].
    clear l r E. intros pre m rest l0 l1 i Em (f0 & [T W0] & K0) E. cbn [app] in Em. assert (Hm : In m (p_maps (s_p st))) by (rewrite Em; apply in_elt).
    destruct (track_tinv l0 f0 m T (Hall _ Hm)) as (l2 & i1 & f1 & E1 & T1 & Fi & Mo & Ma & Keep). rewrite E in E1. injection E1 as <- <-. exists f1.
    split; [split; [auto|intros m' H' M'; apply W0; [auto|]; eapply track_marked; eauto]|]. intros; eapply marked_track; eauto.
  - exists f. split; [|split; [auto|exact N]]. destruct W as [[T1 T2 T3 T4] W]. split; [constructor; auto|exact W].
  - cbn [s_l s_p set_p set_l].
    refine (update_gots_ind e ibs t (fun l p => exists f', winv D l (p_prot p) f' /\ (forall m', marked (s_l st) f m' -> marked l f' m') /\
      (exists evs, p_log p = p_log (s_p st) ++ evs /\ p_mem p = replay (p_mem (s_p st)) evs /\
        guard (fun pre x => exists m n, In m (p_maps (s_p st)) /\ slot relocs m n x /\ prot_done D (protects pre) m) (p_log (s_p st)) evs)) _ _ _ [] _ _ _ _ eq_refl eq_refl _ E).
    + intros pre m rest l1 p1 l2 p2 Em Ep (f1 & W1 & K1 & v1 & A1 & B1 & C1) E1. cbn [app] in Em, Ep. rewrite <- Ep in Em.
      destruct (update_winv D ibs t pre m rest _ _ _ _ f1 Em ltac:(rewrite Ep; auto) ltac:(rewrite Ep; auto) W1 E1) as (f2 & W2 & K2 & v2 & A2 & B2 & C2). exists f2. split; [exact W2|]. split; [auto|].
      exists (v1 ++ v2). split; [rewrite A2, A1, app_assoc; auto|]. split; [rewrite B2, B1, replay_app; auto|]. apply guard_app; [auto|]. rewrite <- A1.
      eapply guard_incl; [|exact C2]. intros q x [H (n & Hn)]. exists m, n. split; [rewrite <- Ep, Em; apply in_elt|]. auto.
    + exists f. split; [exact W|]. split; [auto|exact N].
Qed.
Lemma mics_winv (D : list lmap -> Prop) tr st st' : mics e tr st st' -> forall f, D (p_maps (s_p st)) -> (forall m', In m' (p_maps (s_p st)) -> In m' all) ->
  winv D (s_l st) (p_prot (s_p st)) f ->
  exists f', winv D (s_l st') (p_prot (s_p st')) f' /\ (forall m', marked (s_l st) f m' -> marked (s_l st') f' m') /\
    (exists evs, p_log (s_p st') = p_log (s_p st) ++ evs /\ p_mem (s_p st') = replay (p_mem (s_p st)) evs /\
       guard (fun pre x => exists m n, In m (p_maps (s_p st)) /\ slot relocs m n x /\ prot_done D (protects pre) m) (p_log (s_p st)) evs).
Proof.
  induction 1 as [st|tr1 tr2 st st1 st2 M _ IH]; intros f HD Hall W.
  { exists f. split; [auto|]. split; [auto|]. exists []. rewrite app_nil_r. cbn. auto. }
  destruct (mic_winv D _ _ _ f HD Hall W M) as (f1 & W1 & K1 & v1 & A1 & B1 & C1). destruct (mic_frame _ _ _ _ M) as (_ & F & _). pose proof HD as HD'. pose proof Hall as Hall'. rewrite <- F in HD', Hall'.
  destruct (IH f1 HD' Hall' W1) as (f2 & W2 & K2 & v2 & A2 & B2 & C2). exists f2. split; [auto|]. split; [auto|]. exists (v1 ++ v2).
  split; [rewrite A2, A1, app_assoc; auto|]. split; [rewrite B2, B1, replay_app; auto|]. apply guard_app; [auto|]. rewrite <- A1, <- F. auto.
Qed.
End Prot.

(** *** histories *)
Section Hist.
Context (e : env) (maps : list lmap) (mem : Z -> Z) (ops : list op).
Context (HND : apart (seen maps ops)) (HST : steady (seen maps ops)).
(** link map lists of the history so far *)
Definition past (l : list op) (maps0 : list lmap) : Prop := exists l1 l2, l = l1 ++ l2 /\ maps0 = maps_after maps l1.
Lemma past_now l : past l (maps_after maps l).
Proof. exists l, []. rewrite app_nil_r. auto. Qed.
Lemma past_app l l' maps0 : past l maps0 -> past (l ++ l') maps0.
Proof. intros (l1 & l2 & -> & ->). exists l1, (l2 ++ l'). rewrite app_assoc. auto. Qed.

Definition prot_ok (l : list op) (st : state) : Prop :=
  (s_init st = false /\ l_heap (s_l st) = []) \/ (s_init st = true /\ exists f, winv e (seen maps ops) (past l) (s_l st) (p_prot (s_p st)) f).

Lemma winv_app l l' ls prot f : winv e (seen maps ops) (past l) ls prot f -> winv e (seen maps ops) (past (l ++ l')) ls prot f.
Proof. intros [T W]. split; [auto|]. intros m H M. destruct (W m H M) as (maps0 & calls & A & B). exists maps0, calls. split; [apply past_app; auto|auto]. Qed.
Lemma prot_ok_app l l' st : prot_ok l st -> prot_ok (l ++ l') st.
Proof. intros [H|(I & f & W)]; [left; auto|]. right. split; [auto|]. exists f. apply winv_app. auto. Qed.

Lemma init_winv l st st1 : prot_ok l st -> 48 <= e_ps e -> inits e st st1 -> s_init st1 = true -> exists f, winv e (seen maps ops) (past l) (s_l st1) (p_prot (s_p st1)) f.
Proof.
  intros Q PS I I1. destruct I as [->|(I0 & _ & Eh & _ & _ & Et & _)].
  - destruct Q as [[I0 _]|[_ H]]; [congruence|auto].
  - destruct Q as [[_ E0]|[I2 _]]; [|congruence]. destruct (kmap_create (D := nat) (lkeys (seen maps ops)) link_map_hash link_map_cmp lkey_eqb (e_ps e) 128 PS) as (t & Et' & K); [lia|].
    exists (fun _ => None). rewrite Et in Et'. injection Et' as <-. split.
    + constructor; [auto|discriminate|discriminate|]. intros i lb H. rewrite Eh, E0 in H. destruct i; discriminate H.
    + intros m _ (i & lb & H & _). discriminate H.
Qed.
Lemma seen_prefix l l2 m : ops = l ++ l2 -> In m (maps_after maps l) -> In m (seen maps ops).
Proof. intros -> H. apply seen_mono. apply maps_seen. auto. Qed.

Lemma run_prot l : 48 <= e_ps e -> forall l2, ops = l ++ l2 -> forall st rs, run e (init_state maps mem) l = Ok (st, rs) -> prot_ok l st.
Proof.
  intros PS l2 El st rs E. destruct (lift e maps mem (fun k _ st => forall k2, l = k ++ k2 -> prot_ok k st)) with (ops := l) (st := st) (rs := rs) as (_ & tr & L & _); auto.
  - intros k2 _. left. auto.
  - intros k o tr st0 st' r L G Es k2 Ek. assert (Q : prot_ok (k ++ [o]) st0) by (apply prot_ok_app; apply (L (o :: k2)); rewrite <- app_assoc in Ek; auto).
    destruct o; cbn in G; try tauto; cbn in Es; injection Es as <- _; exact Q.
  - intros k o tr st0 L G k2 Ek. apply prot_ok_app. apply (L (o :: k2)). rewrite <- app_assoc in Ek. auto.
  - intros k tr st0 st' L EM I I1 k2 Ek. right. split; [auto|]. eapply init_winv; eauto.
  - intros k tr st0 tr1 st' L EM I M k2 Ek. right. destruct (mic_frame _ _ _ _ M) as (F1 & _). split; [congruence|]. destruct (L k2 Ek) as [[I0 _]|(_ & f & W)]; [congruence|].
    destruct (mic_winv e (seen maps ops) HND HST (past k) st0 tr1 st' f) with (3 := W) (4 := M) as (f' & W' & _).
    + rewrite EM. apply past_now.
    + intros m' H. rewrite EM in H. apply (seen_prefix k (k2 ++ l2)); [rewrite app_assoc, <- Ek; auto|auto].
    + exists f'. auto.
  - apply (L []). rewrite app_nil_r. auto.
Qed.

Lemma step_prot o st rs st' r : 48 <= e_ps e -> run e (init_state maps mem) ops = Ok (st, rs) -> gotcha_op o -> step e st o = Ok (st', r) ->
  exists evs, p_log (s_p st') = p_log (s_p st) ++ evs /\ p_mem (s_p st') = replay (p_mem (s_p st)) evs /\
    forall e1 x v e2, evs = e1 ++ PStore x v :: e2 ->
    exists m n, In m (maps_after maps ops) /\ slot relocs m n x /\ prot_done e (past ops) (protects (p_log (s_p st) ++ e1)) m.
Proof.
  intros PS E G Es. pose proof (run_prot ops PS [] (eq_sym (app_nil_r _)) _ _ E) as Q.
  destruct (lift e maps mem (fun _ _ _ => True)) with (ops := ops) (st := st) (rs := rs) as (EM & _); auto.
  destruct (step_mics _ _ _ _ _ G Es) as [(-> & _)|(st1 & tr & I & I1 & M & _)].
  { exists []. rewrite app_nil_r. split; [auto|]. split; [auto|]. intros [|? ?] x v e2 H; discriminate H. }
  destruct (init_winv _ _ _ Q PS I I1) as [f W]. assert (EP : s_p st1 = s_p st) by (destruct I as [->|(_ & _ & _ & _ & _ & _ & -> & _)]; auto).
  destruct (mics_winv e (seen maps ops) HND HST (past ops) tr st1 st' M f) with (3 := W) as (f' & W' & _ & evs & A & B & C).
  - rewrite EP, EM. apply past_now.
  - intros m' H. rewrite EP, EM in H. apply maps_seen. auto.
  - rewrite EP, EM in *. exists evs. split; [auto|]. split; [auto|]. intros e1 x v e2 ->. apply guard_elim in C. exact C.
Qed.
End Hist.

(** *** every mprotect call is for a loaded library, whatever the hash values *)
Lemma update_calls e ibs t m rest l p l' p' : update_library_got e ibs t m rest (l, p) = Ok (l', p') ->
  forall c, In c (p_prot p') -> In c (p_prot p) \/ exists calls, mark_got_writable (e_ps e) (e_phdrs e (p_maps p)) m = Ok calls /\ In c calls.
Proof.
  unfold update_library_got. intros E c Hc. iba E as [l1 i]. ib E. destruct (negb a); [injection E as <- <-; auto|]. ib E. destruct (_ =? _); [injection E as <- <-; auto|].
  iba E as [heap log1]. ib E. iba E as [mem log2]. injection E as <- <-. unfold p_prot in *. cbn [p_log] in Hc.
  assert (L2 : protects log2 = protects log1).
  { destruct a1 as [rs|]; [|injection B4 as _ <-; auto]. destruct (ulb_slots _ _ _ _ _ _ _ _ B4) as (evs & -> & _ & H & _). rewrite protects_app, H, app_nil_r. auto. }
  rewrite L2 in Hc. destruct (lb_writable a0); [injection B2 as <- <-; auto|]. iba B2 as calls. injection B2 as <- <-.
  rewrite protects_app, protects_map in Hc. apply in_app_or in Hc. destruct Hc; [auto|right; eauto].
Qed.
Lemma run_calls e maps mem ops st rs : run e (init_state maps mem) ops = Ok (st, rs) ->
  forall c, In c (p_prot (s_p st)) -> exists l1 l2 m calls, ops = l1 ++ l2 /\ In m (maps_after maps l1) /\ mark_got_writable (e_ps e) (e_phdrs e (maps_after maps l1)) m = Ok calls /\ In c calls.
Proof.
  intros E. set (P := fun l (st : state) => forall c, In c (p_prot (s_p st)) -> exists l1 l2 m calls, l = l1 ++ l2 /\ In m (maps_after maps l1) /\ mark_got_writable (e_ps e) (e_phdrs e (maps_after maps l1)) m = Ok calls /\ In c calls).
  assert (App : forall l l' st, P l st -> P (l ++ l') st).
  { intros l l' st0 H c Hc. destruct (H c Hc) as (l1 & l2 & m & calls & -> & A). exists l1, (l2 ++ l'), m, calls. split; [rewrite app_assoc; auto|auto]. }
  destruct (lift e maps mem (fun l _ st => P l st)) with (ops := ops) (st := st) (rs := rs) as (_ & tr & L & _); auto.
  - intros c [].
  - intros l o tr st0 st' r L G Es. apply (App l [o]) in L. destruct o; cbn in G; try tauto; cbn in Es; injection Es as <- _; exact L.
  - intros l tr st0 st' L _ [->|(_ & _ & _ & _ & _ & _ & EP & _)] _; [auto|]. intros c Hc. rewrite EP in Hc. auto.
  - intros l tr st0 tr1 st' L EM _ M. destruct M as [n k i Et|g|ibs t k p E0| |bs S|tool t ubs bs tbl Ht Eb]; try exact L.
    change (P l (set_p p (set_l k st0))). refine (update_gots_ind e ibs t (fun _ q => P l (set_p q st0)) (p_maps (s_p st0)) _ _ [] _ _ _ _ eq_refl eq_refl _ E0); [|destruct st0; exact L].
    clear p k E0. intros pre m rest k p k' p' Em Ep L0 Eu c Hc. cbn [s_p set_p] in Hc. destruct (update_calls _ _ _ _ _ _ _ _ _ Eu c Hc) as [H|(calls & A & B)]; [apply L0; auto|]. exists l, [], m, calls. rewrite app_nil_r. split; [auto|].
    rewrite Ep in A. rewrite <- EM. split; [rewrite Em; apply in_elt|auto].
Qed.

(** *** the log accounts for every change of memory *)
Lemma update_log e ibs t m rest l p l' p' : update_library_got e ibs t m rest (l, p) = Ok (l', p') ->
  exists evs, p_log p' = p_log p ++ evs /\ p_mem p' = replay (p_mem p) evs.
Proof.
  assert (N : exists evs, p_log p = p_log p ++ evs /\ p_mem p = replay (p_mem p) evs) by (exists []; rewrite app_nil_r; cbn; auto).
  unfold update_library_got. intros E. iba E as [l1 i]. ib E. destruct (negb a); [injection E as <- <-; auto|]. ib E. destruct (_ =? _); [injection E as <- <-; auto|].
  iba E as [heap log1]. ib E. iba E as [mem log2]. injection E as <- <-. cbn [p_log p_mem].
  assert (L1 : exists calls, log1 = p_log p ++ map PProtect calls).
  { destruct (lb_writable a0); [injection B2 as _ <-; exists []; rewrite app_nil_r; auto|]. iba B2 as calls. injection B2 as _ <-. eauto. }
  destruct L1 as (calls & ->). assert (L2 : exists evs, log2 = (p_log p ++ map PProtect calls) ++ evs /\ mem = replay (p_mem p) evs).
  { destruct a1 as [rs|]; [|injection B4 as <- <-; exists []; rewrite app_nil_r; cbn; auto]. destruct (ulb_slots _ _ _ _ _ _ _ _ B4) as (evs & A & B' & _). eauto. }
  destruct L2 as (evs & -> & ->). exists (map PProtect calls ++ evs). rewrite app_assoc, replay_app, replay_protects. auto.
Qed.
Lemma mics_log e tr st st' : mics e tr st st' -> exists evs, p_log (s_p st') = p_log (s_p st) ++ evs /\ p_mem (s_p st') = replay (p_mem (s_p st)) evs.
Proof.
  induction 1 as [st|tr1 tr2 st st1 st2 M _ (v2 & A2 & B2)]; [exists []; rewrite app_nil_r; cbn; auto|].
  assert (H : exists evs, p_log (s_p st1) = p_log (s_p st) ++ evs /\ p_mem (s_p st1) = replay (p_mem (s_p st)) evs).
  { destruct M as [| |ibs t l p E| | |]; try (exists []; rewrite app_nil_r; cbn; auto; fail).
    refine (update_gots_ind e ibs t (fun _ q => exists evs, p_log q = p_log (s_p st) ++ evs /\ p_mem q = replay (p_mem (s_p st)) evs) _ _ _ [] _ _ _ _ eq_refl eq_refl _ E); [|exists []; rewrite app_nil_r; cbn; auto].
    intros pre m rest k q k' q' _ _ (v & A & B) Eu. destruct (update_log _ _ _ _ _ _ _ _ _ Eu) as (w & A' & B'). exists (v ++ w). rewrite A', A, B', B, app_assoc, replay_app. auto. }
  destruct H as (v1 & A1 & B1). exists (v1 ++ v2). rewrite A2, A1, app_assoc, B2, B1, replay_app. auto.
Qed.
Lemma step_log e st o st' r : gotcha_op o -> step e st o = Ok (st', r) -> exists evs, p_log (s_p st') = p_log (s_p st) ++ evs /\ p_mem (s_p st') = replay (p_mem (s_p st)) evs.
Proof.
  intros G E. destruct (step_mics _ _ _ _ _ G E) as [(-> & _)|(st1 & tr & I & _ & M & _)]; [exists []; rewrite app_nil_r; cbn; auto|].
  assert (EP : s_p st1 = s_p st) by (destruct I as [->|(_ & _ & _ & _ & _ & _ & -> & _)]; auto). rewrite <- EP. eapply mics_log; eauto.
Qed.
