(** Facts about linked lists in index heaps and the tool registry. *)
From Verif Require Import Base ListFacts HashModel HashProofs SpecHash HashTrace ToolModel CoreModel SpecCore.
From Coq Require Import Permutation Sorted.

(** ** linked lists: [nx i] is the next pointer of node [i] if it exists *)
Fixpoint lseg (nx : nat -> option (option nat)) (p : option nat) (l : list nat) : Prop :=
  match l with
  | [] => p = None
  | i :: r => p = Some i /\ exists q, nx i = Some q /\ lseg nx q r
  end.

(** segment from [p] through [l] up to pointer [q] *)
Fixpoint lpath (nx : nat -> option (option nat)) (p : option nat) (l : list nat) (q : option nat) : Prop :=
  match l with
  | [] => p = q
  | i :: r => p = Some i /\ exists q', nx i = Some q' /\ lpath nx q' r q
  end.

Lemma lseg_path nx p l : lseg nx p l <-> lpath nx p l None.
Proof.
  revert p. induction l as [|i r IH]; intros p; cbn; [tauto|].
  split; intros (E & q & H1 & H2); (split; [exact E|]); exists q; (split; [exact H1|]); apply IH; exact H2.
Qed.

Lemma lpath_app nx l1 l2 : forall p q, lpath nx p (l1 ++ l2) q <-> exists m, lpath nx p l1 m /\ lpath nx m l2 q.
Proof.
  induction l1 as [|i r IH]; intros p q; cbn.
  - split; [intros H; exists p; auto|intros (m & -> & H); auto].
  - split.
    + intros (E & q' & H1 & H2). apply IH in H2. destruct H2 as (m & H2 & H3). exists m. eauto 6.
    + intros (m & (E & q' & H1 & H2) & H3). split; [auto|]. exists q'. split; [auto|]. apply IH. eauto.
Qed.

Lemma lseg_app nx l1 l2 p : lseg nx p (l1 ++ l2) <-> exists m, lpath nx p l1 m /\ lseg nx m l2.
Proof. rewrite lseg_path, lpath_app. split; intros (m & H1 & H2); exists m; (split; [auto|]); apply lseg_path; auto. Qed.

Lemma lpath_ext nx nx' l : forall p q, (forall i, In i l -> nx' i = nx i) -> lpath nx p l q -> lpath nx' p l q.
Proof.
  induction l as [|i r IH]; intros p q H; cbn; [auto|].
  intros (E & q' & H1 & H2). split; [auto|]. exists q'. rewrite H by (left; auto). split; [auto|].
  apply IH; [|auto]. intros j Hj. apply H. right; auto.
Qed.
Lemma lseg_ext nx nx' l p : (forall i, In i l -> nx' i = nx i) -> lseg nx p l -> lseg nx' p l.
Proof. intros H. rewrite !lseg_path. apply lpath_ext; auto. Qed.

Lemma lseg_head nx p l : lseg nx p l -> p = hd_error l.
Proof. destruct l; cbn; [auto|]. intros [-> _]. reflexivity. Qed.

Lemma lpath_last nx l : forall p i q, lpath nx p (l ++ [i]) q -> nx i = Some q.
Proof.
  intros p i q H. apply lpath_app in H. destruct H as (m & _ & H). cbn in H. destruct H as (_ & q' & H1 & H2). congruence.
Qed.

Lemma lseg_fun nx l : forall p l', lseg nx p l -> lseg nx p l' -> l = l'.
Proof.
  induction l as [|i r IH]; intros p l' H H'.
  - cbn in H. subst. destruct l' as [|j r']; [auto|]. cbn in H'. destruct H' as [E _]. discriminate.
  - cbn in H. destruct H as (E & q & H1 & H2). destruct l' as [|j r']; cbn in H'; [congruence|].
    destruct H' as (E' & q' & H1' & H2'). assert (i = j) by congruence. subst j. f_equal.
    assert (q = q') by congruence. subst q'. eapply IH; eauto.
Qed.

(** node [x] is put in front of everything *)
Lemma lseg_cons_new nx nx' p l x : lseg nx p l -> ~ In x l -> (forall i, i <> x -> nx' i = nx i) -> nx' x = Some p ->
  lseg nx' (Some x) (x :: l).
Proof.
  intros H Hx Hn E. cbn. split; [auto|]. exists p. split; [auto|]. eapply lseg_ext; [|exact H].
  intros i Hi. apply Hn. intros ->. auto.
Qed.

(** node [x] is put after node [c] *)
Lemma lseg_insert nx nx' p l1 c l2 x q : lseg nx p (l1 ++ c :: l2) -> NoDup (l1 ++ c :: l2) -> ~ In x (l1 ++ c :: l2) ->
  (forall i, i <> x -> i <> c -> nx' i = nx i) -> nx c = Some q -> nx' x = Some q -> nx' c = Some (Some x) ->
  lseg nx' p (l1 ++ c :: x :: l2).
Proof.
  intros H ND Hx Hn Ec Ex Ec'. rewrite in_app_iff in Hx.
  destruct (NoDup_split_neq _ _ _ ND) as (N1 & N2 & _).
  apply lseg_app in H. destruct H as (m & H1 & H2). apply lseg_app. exists m. split.
  - eapply lpath_ext; [|exact H1]. intros i Hi. apply Hn; intros ->; tauto.
  - cbn in H2 |- *. destruct H2 as (Em & q' & H3 & H4). split; [auto|]. exists (Some x). split; [auto|]. split; [auto|].
    exists q. split; [auto|]. assert (q' = q) by congruence. subst q'.
    eapply lseg_ext; [|exact H4]. intros i Hi. apply Hn; intros ->; cbn in Hx; tauto.
Qed.

(** node [x] after [c] is unlinked *)
Lemma lseg_unlink nx nx' p l1 c x l2 q : lseg nx p (l1 ++ c :: x :: l2) -> NoDup (l1 ++ c :: x :: l2) ->
  (forall i, i <> c -> nx' i = nx i) -> nx x = Some q -> nx' c = Some q -> lseg nx' p (l1 ++ c :: l2).
Proof.
  intros H ND Hn Ex Ec'.
  destruct (NoDup_split_neq _ _ _ ND) as (N1 & N2 & _).
  apply lseg_app in H. destruct H as (m & H1 & H2). apply lseg_app. exists m. split.
  - eapply lpath_ext; [|exact H1]. intros i Hi. apply Hn; intros ->; tauto.
  - cbn in H2 |- *. destruct H2 as (Em & q1 & H3 & -> & q2 & H5 & H6). split; [auto|]. exists q. split; [auto|].
    assert (q2 = q) by congruence. subst q2. eapply lseg_ext; [|exact H6]. intros i Hi. apply Hn. intros ->. cbn in N2. tauto.
Qed.

(** ** tools *)
Definition tnx (h : list tool) (i : nat) : option (option nat) := option_map t_next (nth_error h i).
Definition tinfo (t : tool) : cstr * Z * option nat * option nat := (t_name t, t_prio t, t_binding t, t_parent t).
Definition tname (h : list tool) (i : nat) : cstr := match nth_error h i with Some t => t_name t | None => [] end.
Definition tprio (h : list tool) (i : nat) : Z := match nth_error h i with Some t => t_prio t | None => 0 end.

(** what is known about every tool: (name, priority), in order of creation *)
Definition tool_prios (h : list tool) : list (cstr * Z) := map (fun t => (t_name t, t_prio t)) h.

Record tools_ok (ts : tstate) (l : list nat) : Prop := {
  to_list : lseg (tnx (ts_heap ts)) (ts_head ts) l;
  to_perm : Permutation l (seq 0 (length (ts_heap ts)));
  to_names : NoDup (map t_name (ts_heap ts));
  to_sorted : StronglySorted Z.le (map (tprio (ts_heap ts)) l);
  to_parent : forall t, In t (ts_heap ts) -> t_parent t = None }.

Lemma deref_Ok {A} (h : list A) i x : nth_error h i = Some x -> deref h i = Ok x.
Proof. unfold deref. intros ->. reflexivity. Qed.
Lemma deref_inv {A} (h : list A) i x : deref h i = Ok x -> nth_error h i = Some x.
Proof. unfold deref. destruct (nth_error h i); congruence. Qed.

Lemma tinfo_nth h h' : map tinfo h' = map tinfo h -> forall i t, nth_error h i = Some t ->
  exists t', nth_error h' i = Some t' /\ tinfo t' = tinfo t.
Proof.
  intros E i t H. pose proof (map_nth_error tinfo i h H) as H1. rewrite <- E, nth_error_map in H1.
  destruct (nth_error h' i) as [t'|]; [|discriminate]. exists t'. split; [reflexivity|]. cbn [option_map] in H1. congruence.
Qed.

Lemma tinfo_length h h' : map tinfo h' = map tinfo h -> length h' = length h.
Proof. intros E. rewrite <- (map_length tinfo h'), E, map_length. reflexivity. Qed.
Lemma tinfo_names h h' : map tinfo h' = map tinfo h -> map t_name h' = map t_name h.
Proof.
  intros E. transitivity (map (fun x => fst (fst (fst x))) (map tinfo h')); [rewrite map_map; reflexivity|].
  rewrite E, map_map. reflexivity.
Qed.
Lemma tinfo_tprio h h' : map tinfo h' = map tinfo h -> forall i, tprio h' i = tprio h i.
Proof.
  intros E i. unfold tprio. destruct (nth_error h i) as [t|] eqn:Ht.
  - destruct (tinfo_nth h h' E i t Ht) as (t' & -> & Ei). unfold tinfo in Ei. congruence.
  - apply nth_error_None in Ht. rewrite <- (tinfo_length _ _ E) in Ht. apply nth_error_None in Ht. rewrite Ht. reflexivity.
Qed.
Lemma tinfo_prios h h' : map tinfo h' = map tinfo h -> tool_prios h' = tool_prios h.
Proof.
  intros E. unfold tool_prios.
  transitivity (map (fun x => (fst (fst (fst x)), snd (fst (fst x)))) (map tinfo h')); [rewrite map_map; reflexivity|].
  rewrite E, map_map. reflexivity.
Qed.
Lemma tinfo_parent h h' : map tinfo h' = map tinfo h -> (forall t, In t h -> t_parent t = None) -> forall t, In t h' -> t_parent t = None.
Proof.
  intros E H t Ht. apply In_nth_error in Ht. destruct Ht as [i Hi].
  destruct (tinfo_nth h' h (eq_sym E) i t Hi) as (t' & H1 & H2). apply nth_error_In in H1. apply H in H1. unfold tinfo in H2. congruence.
Qed.

Lemma upd_tnext_info h i v : map tinfo (upd h i (set_tnext v)) = map tinfo h.
Proof. revert i. induction h as [|t r IH]; intros [|i]; cbn; auto. f_equal. apply IH. Qed.
Lemma upd_tbinding_next h i v j : tnx (upd h i (set_tbinding v)) j = tnx h j.
Proof.
  unfold tnx. rewrite nth_error_upd. destruct (Nat.eqb i j) eqn:E; [|reflexivity].
  apply Nat.eqb_eq in E. subst. destruct (nth_error h j); reflexivity.
Qed.

Lemma tnx_upd h i v j : tnx (upd h i (set_tnext v)) j = if Nat.eqb i j then option_map (fun _ => v) (nth_error h j) else tnx h j.
Proof.
  unfold tnx. rewrite nth_error_upd. destruct (Nat.eqb i j) eqn:E; [|reflexivity].
  apply Nat.eqb_eq in E. subst. destruct (nth_error h j); reflexivity.
Qed.

Lemma in_l_lt ts l i : tools_ok ts l -> In i l -> (i < length (ts_heap ts))%nat.
Proof. intros H Hi. apply (Permutation_in _ (to_perm _ _ H)) in Hi. apply in_seq in Hi. lia. Qed.
Lemma lt_in_l ts l i : tools_ok ts l -> (i < length (ts_heap ts))%nat -> In i l.
Proof. intros H Hi. apply (Permutation_in _ (Permutation_sym (to_perm _ _ H))). apply in_seq. lia. Qed.
Lemma to_nodup ts l : tools_ok ts l -> NoDup l.
Proof. intros H. eapply Permutation_NoDup; [apply Permutation_sym, (to_perm _ _ H)|apply seq_NoDup]. Qed.

(** *** get_tool *)
Lemma get_tool_loop_spec h name : forall l fuel p, lseg (tnx h) p l -> (length l <= fuel)%nat ->
  get_tool_loop fuel h p name = Ok (find (fun i => cstr_eqb (tname h i) name) l).
Proof.
  induction l as [|i r IH]; intros fuel p H Hf.
  - cbn in H. subst. destruct fuel; reflexivity.
  - cbn in H. destruct H as (-> & q & H1 & H2). destruct fuel as [|f]; [cbn in Hf; lia|].
    cbn. unfold tnx in H1. destruct (nth_error h i) as [t|] eqn:E; [|discriminate]. rewrite (deref_Ok _ _ _ E). cbn.
    unfold tname at 1. rewrite E. injection H1 as H1.
    destruct (Z.eqb_spec (libc_strcmp name (t_name t)) 0) as [E0|E0].
    + apply libc_strcmp_eq0 in E0. subst name. unfold cstr_eqb. destruct (cstr_eq_dec _ _); [reflexivity|congruence].
    + unfold cstr_eqb at 1. destruct (cstr_eq_dec (t_name t) name) as [En|En].
      * exfalso. apply E0. apply libc_strcmp_eq0. auto.
      * rewrite H1. apply IH; [auto|cbn in Hf; lia].
Qed.

Lemma get_tool_spec ts l name : tools_ok ts l ->
  match get_tool ts name with
  | Ok (Some i) => exists t, nth_error (ts_heap ts) i = Some t /\ t_name t = name
  | Ok None => ~ In name (map t_name (ts_heap ts))
  | Fault _ => False
  end.
Proof.
  intros H. unfold get_tool. rewrite (get_tool_loop_spec _ _ l).
  - destruct (find _ l) as [i|] eqn:E.
    + apply find_some in E. destruct E as [Hi E]. unfold tname in E.
      destruct (nth_error_lt_Some _ _ (in_l_lt _ _ _ H Hi)) as [t Ht]. rewrite Ht in E. exists t. split; [auto|].
      unfold cstr_eqb in E. destruct (cstr_eq_dec _ _); congruence.
    + intros Hin. apply in_map_iff in Hin. destruct Hin as (t & En & Ht). apply In_nth_error in Ht. destruct Ht as [i Hi].
      pose proof (find_none _ _ E i (lt_in_l _ _ _ H (nth_error_Some_lt _ _ _ Hi))) as E'. cbn in E'. unfold tname in E'.
      rewrite Hi in E'. unfold cstr_eqb in E'. destruct (cstr_eq_dec _ _); congruence.
  - apply (to_list _ _ H).
  - rewrite (Permutation_length (to_perm _ _ H)), seq_length. lia.
Qed.

(** *** reorder_tool *)
Lemma tprio_nth h i t : nth_error h i = Some t -> tprio h i = t_prio t.
Proof. unfold tprio. intros ->. reflexivity. Qed.

Lemma reorder_walk_spec h p : forall l fuel cur, lseg (tnx h) (Some cur) (cur :: l) -> (length l < fuel)%nat ->
  tprio h cur < p ->
  exists l1 c l2, cur :: l = l1 ++ c :: l2 /\ reorder_walk fuel h cur p = Ok c /\
    Forall (fun i => tprio h i < p) (l1 ++ [c]) /\ (match l2 with [] => True | n :: _ => p <= tprio h n end).
Proof.
  induction l as [|n r IH]; intros fuel cur H Hf Hc; destruct fuel as [|f]; try (cbn in Hf; lia).
  - cbn in H. destruct H as (_ & q & H1 & ->). unfold tnx in H1. destruct (nth_error h cur) as [t|] eqn:E; [|discriminate].
    injection H1 as H1. exists [], cur, []. cbn. rewrite (deref_Ok _ _ _ E). cbn. rewrite H1. repeat split; auto.
  - cbn in H. destruct H as (_ & q & H1 & -> & H2). unfold tnx in H1. destruct (nth_error h cur) as [t|] eqn:E; [|discriminate].
    injection H1 as H1. cbn [reorder_walk]. rewrite (deref_Ok _ _ _ E). cbn [bind]. rewrite H1.
    destruct H2 as (q2 & H3 & H4). assert (E2 : exists t2, nth_error h n = Some t2) by (unfold tnx in H3; destruct (nth_error h n); [eauto|discriminate]).
    destruct E2 as [t2 E2]. rewrite (deref_Ok _ _ _ E2). cbn [bind].
    destruct (Z.ltb_spec (t_prio t2) p).
    + destruct (IH f n) as (l1 & c & l2 & A1 & A2 & A3 & A4).
      * cbn. split; [auto|]. exists q2. auto.
      * cbn in Hf. lia.
      * rewrite (tprio_nth _ _ _ E2). auto.
      * exists (cur :: l1), c, l2. rewrite A1. repeat split; auto. cbn. constructor; auto.
    + exists [], cur, (n :: r). split; [reflexivity|]. split; [reflexivity|]. split; [repeat constructor; auto|]. rewrite (tprio_nth _ _ _ E2). lia.
Qed.

Lemma sorted_app_insert (f : nat -> Z) l1 x l2 : StronglySorted Z.le (map f (l1 ++ l2)) ->
  Forall (fun i => f i <= f x) l1 -> Forall (fun i => f x <= f i) l2 -> StronglySorted Z.le (map f (l1 ++ x :: l2)).
Proof.
  induction l1 as [|a r IH]; cbn; intros H1 H2 H3.
  - constructor; [auto|]. apply Forall_map. auto.
  - inversion H1; subst. inversion H2; subst. constructor; [auto|].
    rewrite map_app in *. cbn. rewrite Forall_app in *. destruct H5. repeat split; auto.
Qed.

Lemma sorted_hd_all (f : nat -> Z) p l : StronglySorted Z.le (map f l) -> match l with [] => True | n :: _ => p <= f n end ->
  Forall (fun i => p <= f i) l.
Proof.
  destruct l as [|n r]; intros H Hp; [constructor|]. inversion H; subst. constructor; [auto|].
  rewrite Forall_map in H3. eapply Forall_impl; [|exact H3]. cbn. intros; lia.
Qed.

Lemma reorder_spec ts l new t : lseg (tnx (ts_heap ts)) (ts_head ts) l -> NoDup l -> ~ In new l ->
  nth_error (ts_heap ts) new = Some t -> StronglySorted Z.le (map (tprio (ts_heap ts)) l) -> (length l <= length (ts_heap ts))%nat ->
  exists ts' l', reorder_tool ts new = Ok ts' /\ lseg (tnx (ts_heap ts')) (ts_head ts') l' /\ Permutation l' (new :: l) /\
    StronglySorted Z.le (map (tprio (ts_heap ts)) l') /\ map tinfo (ts_heap ts') = map tinfo (ts_heap ts).
Proof.
  intros HL ND Hn Ht HS Hlen. unfold reorder_tool. rewrite (deref_Ok _ _ _ Ht). cbn [bind].
  pose proof (tprio_nth _ _ _ Ht) as Ep.
  assert (Head : match l with [] => True | n :: _ => t_prio t <= tprio (ts_heap ts) n end ->
    let ts' := mkTS (upd (ts_heap ts) new (set_tnext (ts_head ts))) (Some new) in
    lseg (tnx (ts_heap ts')) (ts_head ts') (new :: l) /\ StronglySorted Z.le (map (tprio (ts_heap ts)) (new :: l)) /\ map tinfo (ts_heap ts') = map tinfo (ts_heap ts)).
  { intros Hp. cbn. split; [|split].
    - apply (lseg_cons_new (tnx (ts_heap ts)) _ (ts_head ts)); auto.
      + intros i Hi. rewrite tnx_upd. destruct (Nat.eqb_spec new i); congruence.
      + rewrite tnx_upd, Nat.eqb_refl, Ht. reflexivity.
    - constructor; [auto|]. apply Forall_map. apply sorted_hd_all; [auto|]. rewrite Ep. auto.
    - apply upd_tnext_info. }
  destruct l as [|hd r].
  - cbn in HL. rewrite HL. exists (mkTS (upd (ts_heap ts) new (set_tnext None)) (Some new)), [new].
    specialize (Head I). rewrite HL in Head. destruct Head as (A & B & C). split; [auto|]. split; [exact A|]. split; [apply Permutation_refl|]. split; auto.
  - pose proof HL as HL'. cbn in HL. destruct HL as (Eh & q & H1 & H2). rewrite Eh in *.
    assert (E2 : exists t2, nth_error (ts_heap ts) hd = Some t2) by (unfold tnx in H1; destruct (nth_error (ts_heap ts) hd); [eauto|discriminate]).
    destruct E2 as [t2 E2]. rewrite (deref_Ok _ _ _ E2). cbn [bind].
    destruct (Z.geb_spec (t_prio t2) (t_prio t)) as [G|G].
    + exists (mkTS (upd (ts_heap ts) new (set_tnext (Some hd))) (Some new)), (new :: hd :: r).
      destruct Head as (A & B & C); [rewrite (tprio_nth _ _ _ E2); lia|]. split; [auto|]. split; [exact A|]. split; [apply Permutation_refl|]. split; auto.
    + destruct (reorder_walk_spec (ts_heap ts) (t_prio t) r (S (length (ts_heap ts))) hd) as (l1 & c & l2 & A1 & A2 & A3 & A4); auto.
      { rewrite (tprio_nth _ _ _ E2). auto. }
      rewrite A2. cbn [bind]. rewrite A1 in *.
      assert (Hc : In c (l1 ++ c :: l2)) by (apply in_elt).
      pose proof HL' as HL2. apply lseg_app in HL2. destruct HL2 as (m & _ & HL2). cbn in HL2. destruct HL2 as (_ & qc & Hqc & _).
      assert (E3 : exists t3, nth_error (ts_heap ts) c = Some t3) by (unfold tnx in Hqc; destruct (nth_error (ts_heap ts) c); [eauto|discriminate]).
      destruct E3 as [t3 E3]. rewrite (deref_Ok _ _ _ E3). cbn [bind].
      assert (Eq : t_next t3 = qc) by (unfold tnx in Hqc; rewrite E3 in Hqc; cbn in Hqc; congruence).
      assert (Hcn : c <> new) by (intros ->; auto).
      eexists (mkTS _ _), (l1 ++ c :: new :: l2). split; [reflexivity|]. cbn [ts_heap ts_head]. split; [|split; [|split]].
      * eapply (lseg_insert (tnx (ts_heap ts)) _ (Some hd) l1 c l2 new qc); auto.
        -- intros i Hi1 Hi2. rewrite !tnx_upd. destruct (Nat.eqb_spec c i); [congruence|]. destruct (Nat.eqb_spec new i); congruence.
        -- rewrite !tnx_upd. destruct (Nat.eqb_spec c new); [congruence|]. rewrite Nat.eqb_refl, Ht. cbn. congruence.
        -- rewrite tnx_upd, Nat.eqb_refl, nth_error_upd. destruct (Nat.eqb_spec new c); [congruence|]. rewrite E3. reflexivity.
      * transitivity (l1 ++ new :: c :: l2); [apply Permutation_app_head, perm_swap|]. symmetry. apply Permutation_middle.
      * replace (l1 ++ c :: new :: l2) with ((l1 ++ [c]) ++ new :: l2) by (rewrite <- app_assoc; reflexivity).
        apply sorted_app_insert.
        -- rewrite <- app_assoc. exact HS.
        -- eapply Forall_impl; [|exact A3]. cbn. intros; lia.
        -- rewrite Ep. apply sorted_hd_all; [|auto].
           replace (l1 ++ c :: l2) with ((l1 ++ [c]) ++ l2) in HS by (rewrite <- app_assoc; reflexivity).
           revert HS. generalize (l1 ++ [c]). induction l as [|a s IHl]; cbn; [auto|]. intros HS. inversion HS; auto.
      * rewrite !upd_tnext_info. reflexivity.
Qed.

(** *** create_tool *)
Lemma tools_ok_info ts ts' l : tools_ok ts l -> map tinfo (ts_heap ts') = map tinfo (ts_heap ts) ->
  lseg (tnx (ts_heap ts')) (ts_head ts') l -> tools_ok ts' l.
Proof.
  intros [A B C D P] E HL. constructor; auto.
  - rewrite (tinfo_length _ _ E). auto.
  - rewrite (tinfo_names _ _ E). auto.
  - erewrite map_ext; [exact D|]. intros. apply tinfo_tprio; auto.
  - eapply tinfo_parent; eauto.
Qed.

Lemma create_tool_spec ps ts l name : 48 <= ps -> tools_ok ts l -> ~ In name (map t_name (ts_heap ts)) ->
  exists ts' l', create_tool ps ts name = Ok (ts', length (ts_heap ts)) /\ tools_ok ts' l' /\
    map tinfo (ts_heap ts') = map tinfo (ts_heap ts) ++ [(name, -1, None, None)].
Proof.
  intros Hps H Hn. unfold create_tool.
  destruct (create_spec (D:=nat) ps 24 strhash libc_strcmp Hps ltac:(lia)) as (ch & Ech & _). rewrite Ech. cbn [bind].
  set (nt := mkTool name None None default_priority ch None).
  set (h := ts_heap ts ++ [nt]).
  assert (Hnt : nth_error h (length (ts_heap ts)) = Some nt).
  { unfold h. rewrite nth_error_app2 by lia. rewrite Nat.sub_diag. reflexivity. }
  assert (Hold : forall i, (i < length (ts_heap ts))%nat -> nth_error h i = nth_error (ts_heap ts) i).
  { intros i Hi. unfold h. apply nth_error_app1; auto. }
  pose proof (to_nodup _ _ H) as ND.
  assert (Hnl : ~ In (length (ts_heap ts)) l) by (intros Hi; apply (in_l_lt _ _ _ H) in Hi; lia).
  destruct (reorder_spec (mkTS h (ts_head ts)) l (length (ts_heap ts)) nt) as (ts' & l' & A1 & A2 & A3 & A4 & A5); cbn [ts_heap ts_head]; auto.
  - eapply lseg_ext; [|apply (to_list _ _ H)]. intros i Hi. unfold tnx. rewrite Hold; [auto|]. eapply in_l_lt; eauto.
  - erewrite map_ext_in; [apply (to_sorted _ _ H)|]. intros i Hi. unfold tprio. rewrite Hold; [auto|]. eapply in_l_lt; eauto.
  - rewrite (Permutation_length (to_perm _ _ H)), seq_length. unfold h. rewrite app_length. lia.
  - rewrite A1. cbn [bind]. exists ts', l'. split; [reflexivity|].
    assert (Ei : map tinfo (ts_heap ts') = map tinfo (ts_heap ts) ++ [(name, -1, None, None)]).
    { rewrite A5. cbn [ts_heap]. unfold h. rewrite map_app. reflexivity. }
    split; [|exact Ei]. cbn [ts_heap] in A4, A5.
    assert (EL : length (ts_heap ts') = S (length (ts_heap ts))).
    { rewrite (tinfo_length _ _ A5). unfold h. rewrite app_length. cbn. lia. }
    constructor; auto.
    + rewrite EL. rewrite A3, (to_perm _ _ H). rewrite seq_S. cbn. apply Permutation_cons_append.
    + rewrite (tinfo_names _ _ A5). unfold h. rewrite map_app. cbn.
      eapply Permutation_NoDup; [apply Permutation_cons_append|]. constructor; [auto|apply (to_names _ _ H)].
    + erewrite map_ext; [exact A4|]. intros. apply tinfo_tprio; auto.
    + eapply tinfo_parent; [exact A5|]. unfold h. intros t Ht. apply in_app_or in Ht. destruct Ht as [Ht|[<-|[]]]; [apply (to_parent _ _ H); auto|reflexivity].
Qed.

Lemma NoDup_map_nth {A B} (f : A -> B) l i j x y : NoDup (map f l) -> nth_error l i = Some x -> nth_error l j = Some y -> f x = f y -> i = j.
Proof.
  intros ND Hi Hj E. eapply (proj1 (NoDup_nth_error (map f l)) ND).
  - rewrite map_length. eapply nth_error_Some_lt; eauto.
  - rewrite (map_nth_error f i l Hi), (map_nth_error f j l Hj). congruence.
Qed.

(** get_or_create: the tool has the name; nothing else about existing tools changes *)
Lemma get_or_create_spec ps ts l name : 48 <= ps -> tools_ok ts l ->
  exists ts' l' i t, get_or_create_tool ps ts name = Ok (ts', i) /\ tools_ok ts' l' /\
    nth_error (ts_heap ts') i = Some t /\ t_name t = name /\
    ((In name (map t_name (ts_heap ts)) /\ ts' = ts) \/
     (~ In name (map t_name (ts_heap ts)) /\ i = length (ts_heap ts) /\ map tinfo (ts_heap ts') = map tinfo (ts_heap ts) ++ [(name, -1, None, None)])).
Proof.
  intros Hps H. unfold get_or_create_tool. pose proof (get_tool_spec ts l name H) as G.
  destruct (get_tool ts name) as [[i|]|]; cbn [bind]; [| |contradiction].
  - destruct G as (t & G1 & G2). exists ts, l, i, t. split; [auto|]. split; [auto|]. split; [auto|].
    split; [auto|]. left. split; [|auto]. subst name. apply in_map. eapply nth_error_In; eauto.
  - destruct (create_tool_spec ps ts l name Hps H G) as (ts' & l' & A1 & A2 & A3).
    assert (Hx : nth_error (map tinfo (ts_heap ts')) (length (ts_heap ts)) = Some (name, -1, None, None)).
    { rewrite A3, nth_error_app2; rewrite map_length; [|lia]. rewrite Nat.sub_diag. reflexivity. }
    rewrite nth_error_map in Hx. destruct (nth_error (ts_heap ts') (length (ts_heap ts))) as [t|] eqn:Et; [|discriminate].
    exists ts', l', (length (ts_heap ts)), t. split; [auto|]. split; [auto|]. split; [auto|].
    cbn in Hx. unfold tinfo in Hx. split; [congruence|]. right. auto.
Qed.

(** *** remove_tool_from_list *)
Lemma tool_equal_spec h i j a b : nth_error h i = Some a -> nth_error h j = Some b ->
  tool_equal h i j = Ok (libc_strcmp (t_name a) (t_name b)).
Proof. intros Ha Hb. unfold tool_equal. rewrite (deref_Ok _ _ _ Ha), (deref_Ok _ _ _ Hb). reflexivity. Qed.

Lemma tool_equal_idx h i j a b : NoDup (map t_name h) -> nth_error h i = Some a -> nth_error h j = Some b ->
  (libc_strcmp (t_name a) (t_name b) =? 0) = Nat.eqb i j.
Proof.
  intros ND Ha Hb. destruct (Z.eqb_spec (libc_strcmp (t_name a) (t_name b)) 0) as [E|E].
  - apply libc_strcmp_eq0 in E. symmetry. apply Nat.eqb_eq. eapply NoDup_map_nth; eauto.
  - symmetry. apply Nat.eqb_neq. intros ->. apply E. apply libc_strcmp_eq0. congruence.
Qed.

Lemma lseg_nth h p l i : lseg (tnx h) p l -> In i l -> exists t, nth_error h i = Some t.
Proof.
  revert p. induction l as [|j r IH]; intros p H Hi; [destruct Hi|]. cbn in H. destruct H as (_ & q & H1 & H2).
  destruct Hi as [->|Hi]; [|eapply IH; eauto]. unfold tnx in H1. destruct (nth_error h i); [eauto|discriminate].
Qed.

Lemma remove_walk_spec h target tt : NoDup (map t_name h) -> nth_error h target = Some tt ->
  forall l1 fuel cur l2, lseg (tnx h) (Some cur) (cur :: l1 ++ target :: l2) -> (length l1 < fuel)%nat -> ~ In target (cur :: l1) ->
  exists l0 c, cur :: l1 = l0 ++ [c] /\ remove_walk fuel h cur target = Ok c.
Proof.
  intros ND Ht. induction l1 as [|n r IH]; intros fuel cur l2 H Hf Hn; destruct fuel as [|f]; try (cbn in Hf; lia).
  - cbn in H. destruct H as (_ & q & H1 & -> & _). exists [], cur. split; [reflexivity|].
    unfold tnx in H1. destruct (nth_error h cur) as [t|] eqn:E; [|discriminate]. injection H1 as H1.
    cbn [remove_walk]. rewrite (deref_Ok _ _ _ E). cbn [bind]. rewrite H1, (tool_equal_spec _ _ _ _ _ Ht Ht). cbn [bind].
    rewrite (tool_equal_idx h target target tt tt ND Ht Ht), Nat.eqb_refl. reflexivity.
  - pose proof H as H0. cbn in H. destruct H as (_ & q & H1 & -> & q2 & H2 & H3).
    destruct (lseg_nth _ _ _ n H0) as [tn En]; [right; left; auto|].
    unfold tnx in H1. destruct (nth_error h cur) as [t|] eqn:E; [|discriminate]. injection H1 as H1.
    cbn [remove_walk]. rewrite (deref_Ok _ _ _ E). cbn [bind]. rewrite H1, (tool_equal_spec _ _ _ _ _ En Ht). cbn [bind].
    rewrite (tool_equal_idx h n target tn tt ND En Ht). destruct (Nat.eqb_spec n target) as [->|Hne].
    + exfalso. apply Hn. cbn. auto.
    + cbn [negb]. destruct (IH f n l2) as (l0 & c & A & B).
      * cbn. split; [auto|]. exists q2. auto.
      * cbn in Hf. lia.
      * intros Hx. apply Hn. right. exact Hx.
      * exists (cur :: l0), c. rewrite A. split; auto.
Qed.

Lemma remove_list_spec ts l1 target l2 : lseg (tnx (ts_heap ts)) (ts_head ts) (l1 ++ target :: l2) -> NoDup (l1 ++ target :: l2) ->
  NoDup (map t_name (ts_heap ts)) -> (length (l1 ++ target :: l2) <= length (ts_heap ts))%nat ->
  exists ts', remove_tool_from_list ts target = Ok ts' /\ lseg (tnx (ts_heap ts')) (ts_head ts') (l1 ++ l2) /\
    map tinfo (ts_heap ts') = map tinfo (ts_heap ts).
Proof.
  intros HL ND NN Hlen. destruct (lseg_nth _ _ _ target HL) as [tt Ht]; [apply in_elt|]. unfold remove_tool_from_list.
  pose proof (lseg_head _ _ _ HL) as Eh.
  destruct l1 as [|hd r].
  - cbn in Eh. rewrite Eh, (tool_equal_spec _ _ _ _ _ Ht Ht). cbn [bind].
    rewrite (tool_equal_idx _ target target tt tt NN Ht Ht), Nat.eqb_refl, (deref_Ok _ _ _ Ht). cbn [bind].
    exists (mkTS (ts_heap ts) (t_next tt)). split; [auto|]. cbn [ts_heap ts_head app]. split; [|auto].
    cbn in HL. destruct HL as (_ & q & H1 & H2). unfold tnx in H1. rewrite Ht in H1. cbn in H1. injection H1 as ->. exact H2.
  - cbn in Eh. rewrite Eh in *. destruct (lseg_nth _ _ _ hd HL) as [th Hh]; [left; auto|].
    assert (Hhd : hd <> target) by (cbn in ND; inversion ND; subst; intros ->; apply H1; apply in_elt).
    rewrite (tool_equal_spec _ _ _ _ _ Hh Ht). cbn [bind]. rewrite (tool_equal_idx _ hd target th tt NN Hh Ht).
    destruct (Nat.eqb_spec hd target) as [|_]; [congruence|].
    destruct (remove_walk_spec (ts_heap ts) target tt NN Ht r (S (length (ts_heap ts))) hd l2 HL) as (l0 & c & A & B).
    { cbn in Hlen. rewrite app_length in Hlen. cbn in Hlen. lia. }
    { destruct (NoDup_split_neq _ _ _ ND) as (N1 & _). exact N1. }
    rewrite B. cbn [bind]. rewrite A in *. rewrite <- app_assoc in HL, ND |- *. cbn in HL, ND |- *.
    destruct (lseg_nth _ _ _ c HL) as [tc Hc]; [apply in_elt|]. rewrite (deref_Ok _ _ _ Hc). cbn [bind].
    pose proof HL as HL2. apply lseg_app in HL2. destruct HL2 as (m & _ & HL2). cbn in HL2. destruct HL2 as (_ & qc & Hqc & -> & q2 & Hq2 & _).
    unfold tnx in Hqc, Hq2. rewrite Hc in Hqc. rewrite Ht in Hq2. cbn in Hqc, Hq2. injection Hqc as Hqc. injection Hq2 as Hq2.
    rewrite Hqc, (tool_equal_spec _ _ _ _ _ Ht Ht). cbn [bind].
    rewrite (tool_equal_idx _ target target tt tt NN Ht Ht), Nat.eqb_refl, (deref_Ok _ _ _ Ht). cbn [bind].
    eexists (mkTS _ _). split; [reflexivity|]. cbn [ts_heap ts_head]. split; [|apply upd_tnext_info].
    eapply (lseg_unlink (tnx (ts_heap ts)) _ (Some hd) l0 c target l2 q2); auto.
    + intros i Hi. rewrite tnx_upd. destruct (Nat.eqb_spec c i); congruence.
    + unfold tnx. rewrite Ht. cbn. congruence.
    + rewrite tnx_upd, Nat.eqb_refl, Hc. cbn. congruence.
Qed.

(** *** set_priority *)

Lemma prios_names h : map fst (tool_prios h) = map t_name h.
Proof. unfold tool_prios. rewrite map_map. reflexivity. Qed.

Lemma set_prio_upd h i t v : NoDup (map t_name h) -> nth_error h i = Some t ->
  tool_prios (upd h i (set_tprio v)) = set_prio (tool_prios h) (t_name t) v.
Proof.
  revert i. induction h as [|x r IH]; intros [|i] ND H; cbn in *; try discriminate.
  - injection H as ->. inversion ND; subst. unfold cstr_eqb at 1. destruct (cstr_eq_dec _ _); [|congruence]. f_equal.
    unfold set_prio, tool_prios. rewrite map_map. apply map_ext_in. intros y Hy. cbn. unfold cstr_eqb.
    destruct (cstr_eq_dec (t_name y) (t_name t)) as [E|E]; [|auto]. exfalso. apply H1. rewrite <- E. apply in_map. auto.
  - inversion ND; subst. unfold cstr_eqb at 1. destruct (cstr_eq_dec (t_name x) (t_name t)) as [E|E].
    + exfalso. apply H2. rewrite E. apply in_map. eapply nth_error_In; eauto.
    + f_equal. apply IH; auto.
Qed.

Definition tbind (t : tool) : cstr * option nat := (t_name t, t_binding t).
Lemma tinfo_bind h h' : map tinfo h' = map tinfo h -> map tbind h' = map tbind h.
Proof.
  intros E. transitivity (map (fun x => (fst (fst (fst x)), snd (fst x))) (map tinfo h')); [rewrite map_map; reflexivity|].
  rewrite E, map_map. reflexivity.
Qed.
Lemma upd_tprio_bind h i v : map tbind (upd h i (set_tprio v)) = map tbind h.
Proof. revert i. induction h as [|t r IH]; intros [|i]; cbn; auto. f_equal. apply IH. Qed.


Lemma existsb_name h n : existsb (fun p => cstr_eqb (fst p) n) (tool_prios h) = true <-> In n (map t_name h).
Proof.
  rewrite <- prios_names, existsb_exists, in_map_iff. split; intros (x & A & B); exists x.
  - split; [|auto]. unfold cstr_eqb in B. destruct (cstr_eq_dec _ _); congruence.
  - split; [auto|]. unfold cstr_eqb. destruct (cstr_eq_dec _ _); congruence.
Qed.

Lemma get_or_create_prios ps ts l name : 48 <= ps -> tools_ok ts l ->
  exists ts' l' i t, get_or_create_tool ps ts name = Ok (ts', i) /\ tools_ok ts' l' /\
    nth_error (ts_heap ts') i = Some t /\ t_name t = name /\
    tool_prios (ts_heap ts') = use_tool (tool_prios (ts_heap ts)) name /\
    (forall j x, nth_error (ts_heap ts) j = Some x -> exists x', nth_error (ts_heap ts') j = Some x' /\ tinfo x' = tinfo x).
Proof.
  intros Hps H. destruct (get_or_create_spec ps ts l name Hps H) as (ts' & l' & i & t & A1 & A2 & A3 & A4 & A5).
  exists ts', l', i, t. repeat (split; [solve [auto]|]). unfold use_tool.
  destruct A5 as [[B1 B2]|(B1 & B2 & B3)].
  - subst ts'. rewrite (proj2 (existsb_name _ _) B1). split; [auto|]. eauto.
  - destruct (existsb _ _) eqn:E; [apply existsb_name in E; contradiction|]. split.
    + unfold tool_prios. transitivity (map (fun x => (fst (fst (fst x)), snd (fst (fst x)))) (map tinfo (ts_heap ts'))); [rewrite map_map; reflexivity|].
      rewrite B3, map_app, map_map. reflexivity.
    + intros j x Hj. pose proof (nth_error_Some_lt _ _ _ Hj) as Hlt.
      pose proof (map_nth_error tinfo _ _ Hj) as E1. rewrite <- (nth_error_app1 _ [(name, -1, None, None)]) in E1 by (rewrite map_length; auto).
      rewrite <- B3, nth_error_map in E1. destruct (nth_error (ts_heap ts') j) as [x'|]; [|discriminate]. cbn in E1. exists x'. split; [auto|congruence].
Qed.

Lemma tprio_upd_other h i v j : i <> j -> tprio (upd h i (set_tprio v)) j = tprio h j.
Proof. intros H. unfold tprio. rewrite nth_error_upd. destruct (Nat.eqb_spec i j); [congruence|reflexivity]. Qed.

Lemma sorted_remove (f : nat -> Z) l1 x l2 : StronglySorted Z.le (map f (l1 ++ x :: l2)) -> StronglySorted Z.le (map f (l1 ++ l2)).
Proof.
  induction l1 as [|a r IH]; cbn; intros H; inversion H; subst; [auto|]. constructor; [auto|].
  rewrite map_app in *. cbn in *. rewrite Forall_app in *. destruct H3 as [A B]. inversion B; subst. auto.
Qed.

Lemma set_priority_spec ps ts l name v : 48 <= ps -> tools_ok ts l ->
  exists ts' l', set_priority_int ps ts name v = Ok ts' /\ tools_ok ts' l' /\
    tool_prios (ts_heap ts') = set_prio (use_tool (tool_prios (ts_heap ts)) name) name v /\
    (forall j x, nth_error (ts_heap ts) j = Some x -> exists x', nth_error (ts_heap ts') j = Some x' /\ tbind x' = tbind x).
Proof.
  intros Hps H. unfold set_priority_int.
  destruct (get_or_create_prios ps ts l name Hps H) as (ts1 & l1 & i & t & A1 & A2 & A3 & A4 & A5 & A6).
  rewrite A1. cbn [bind].
  set (ts2 := mkTS (upd (ts_heap ts1) i (set_tprio v)) (ts_head ts1)).
  assert (Enx : forall j, tnx (ts_heap ts2) j = tnx (ts_heap ts1) j).
  { intros j. unfold tnx, ts2. cbn. rewrite nth_error_upd. destruct (Nat.eqb_spec i j); [subst; destruct (nth_error _ j)|]; reflexivity. }
  assert (Ebind : map tbind (ts_heap ts2) = map tbind (ts_heap ts1)) by (apply upd_tprio_bind).
  assert (Enames : map t_name (ts_heap ts2) = map t_name (ts_heap ts1)).
  { transitivity (map fst (map tbind (ts_heap ts2))); [rewrite map_map; reflexivity|]. rewrite Ebind, map_map. reflexivity. }
  assert (Elen : length (ts_heap ts2) = length (ts_heap ts1)) by (unfold ts2; cbn; apply upd_length).
  assert (HL2 : lseg (tnx (ts_heap ts2)) (ts_head ts2) l1) by (eapply lseg_ext; [|apply (to_list _ _ A2)]; intros; apply Enx).
  assert (Hit : nth_error (ts_heap ts2) i = Some (set_tprio v t)).
  { unfold ts2; cbn. rewrite nth_error_upd, Nat.eqb_refl, A3. reflexivity. }
  assert (G : get_tool ts2 name = Ok (Some i)).
  { unfold get_tool. rewrite (get_tool_loop_spec _ _ l1); [|auto|rewrite (Permutation_length (to_perm _ _ A2)), seq_length; lia].
    destruct (find _ l1) as [j|] eqn:E.
    - apply find_some in E. destruct E as [Hj E]. unfold tname in E.
      destruct (lseg_nth _ _ _ j HL2 Hj) as [tj Htj]. rewrite Htj in E. f_equal. f_equal.
      apply (NoDup_map_nth t_name (ts_heap ts2) j i tj (set_tprio v t)); auto.
      + rewrite Enames. apply (to_names _ _ A2).
      + unfold cstr_eqb in E. destruct (cstr_eq_dec _ _); [|discriminate]. cbn. congruence.
    - pose proof (find_none _ _ E i (lt_in_l _ _ _ A2 (nth_error_Some_lt _ _ _ A3))) as E'. cbv beta in E'. unfold tname in E'. rewrite Hit in E'.
      cbn in E'. unfold cstr_eqb in E'. destruct (cstr_eq_dec _ _); congruence. }
  unfold get_or_create_tool at 1. rewrite G. cbn [bind].
  destruct (in_split i l1 (lt_in_l _ _ _ A2 (nth_error_Some_lt _ _ _ A3))) as (a & b & El). subst l1.
  pose proof (to_nodup _ _ A2) as ND.
  assert (Hlen : (length (a ++ i :: b) <= length (ts_heap ts2))%nat).
  { rewrite Elen, (Permutation_length (to_perm _ _ A2)), seq_length. lia. }
  destruct (remove_list_spec ts2 a i b HL2 ND) as (ts3 & B1 & B2 & B3); [rewrite Enames; apply (to_names _ _ A2)|auto|].
  rewrite B1. cbn [bind].
  destruct (NoDup_split_neq _ _ _ ND) as (N1 & N2 & N3).
  destruct (tinfo_nth _ _ B3 i _ Hit) as (t3 & Ht3 & E3).
  assert (Hp : forall j, In j (a ++ b) -> tprio (ts_heap ts3) j = tprio (ts_heap ts1) j).
  { intros j Hj. rewrite (tinfo_tprio _ _ B3). unfold ts2. cbn. apply tprio_upd_other. intros ->. apply in_app_or in Hj. tauto. }
  destruct (reorder_spec ts3 (a ++ b) i t3) as (ts4 & l4 & C1 & C2 & C3 & C4 & C5); auto.
  - rewrite in_app_iff. tauto.
  - erewrite map_ext_in; [|exact Hp]. eapply sorted_remove. apply (to_sorted _ _ A2).
  - rewrite (tinfo_length _ _ B3). rewrite !app_length in *. cbn [length] in Hlen. rewrite Elen in *. lia.
  - exists ts4, l4. split; [auto|].
    assert (E42 : map tinfo (ts_heap ts4) = map tinfo (ts_heap ts2)) by congruence.
    split; [|split].
    + constructor; auto.
      * rewrite (tinfo_length _ _ E42), Elen, <- (to_perm _ _ A2), C3. symmetry. apply Permutation_sym, Permutation_middle.
      * rewrite (tinfo_names _ _ E42), Enames. apply (to_names _ _ A2).
      * erewrite map_ext; [exact C4|]. intros. apply tinfo_tprio; auto.
      * eapply tinfo_parent; [exact E42|]. unfold ts2. cbn. intros x Hx. apply In_nth_error in Hx. destruct Hx as [j Hj].
        rewrite nth_error_upd in Hj. destruct (Nat.eqb_spec i j); [subst j; rewrite A3 in Hj; cbn in Hj; injection Hj as <-; cbn|].
        -- apply (to_parent _ _ A2). eapply nth_error_In; eauto.
        -- apply (to_parent _ _ A2). eapply nth_error_In; eauto.
    + rewrite (tinfo_prios _ _ E42). unfold ts2. cbn. rewrite (set_prio_upd _ i t); [|apply (to_names _ _ A2)|auto]. rewrite A4, A5. reflexivity.
    + intros j x Hj. destruct (A6 j x Hj) as (x1 & Hx1 & E1).
      assert (Hb : nth_error (map tbind (ts_heap ts4)) j = Some (tbind x1)).
      { rewrite (tinfo_bind _ _ E42), Ebind. apply map_nth_error. auto. }
      rewrite nth_error_map in Hb. destruct (nth_error (ts_heap ts4) j) as [x4|]; [|discriminate]. exists x4. split; [auto|].
      cbn in Hb. unfold tinfo in E1. unfold tbind in *. congruence.
Qed.

(** *** gotcha_get_priority *)
Lemma get_configuration_spec ts l name : tools_ok ts l ->
  get_configuration_value ts name =
  Ok (match aget cstr_eqb (tool_prios (ts_heap ts)) name with
      | Some v => (GOTCHA_SUCCESS, Some v)
      | None => (GOTCHA_INVALID_TOOL, None)
      end).
Proof.
  intros H. unfold get_configuration_value. pose proof (get_tool_spec ts l name H) as G.
  destruct (get_tool ts name) as [[i|]|]; cbn [bind]; [| |contradiction].
  - destruct G as (t & Ht & En). cbn [config_loop]. rewrite (deref_Ok _ _ _ Ht). cbn [bind].
    rewrite (to_parent _ _ H t) by (eapply nth_error_In; eauto).
    assert (E : aget cstr_eqb (tool_prios (ts_heap ts)) name = Some (t_prio t)).
    { apply (aget_In cstr_eqb cstr_eqb_ok); [rewrite prios_names; apply (to_names _ _ H)|].
      apply nth_error_In in Ht. apply (in_map (fun t => (t_name t, t_prio t))) in Ht. rewrite En in Ht. exact Ht. }
    rewrite E. destruct (Z.eqb_spec (t_prio t) UNSET_PRIORITY) as [Eu|Eu]; cbn [negb].
    + destruct (length (ts_heap ts)); cbn [config_loop bind]; rewrite Eu; reflexivity.
    + reflexivity.
  - destruct (aget _ _ _) as [v|] eqn:E; [|reflexivity]. exfalso. apply G.
    apply (aget_Some cstr_eqb cstr_eqb_ok) in E. rewrite <- prios_names. apply (in_map fst) in E. exact E.
Qed.
