(** Property C87: how many slots of a table the operations of src/hash.c look at. *)
From Verif Require Import Base HashModel SpecHash HashProofs HashTrace ToolModel CoreModel SpecCore SpecRun SpecCost CostProofs CostTable PropsElf Demo PropsCoreEx.
Open Scope list_scope.
Open Scope Z_scope.
From Coq Require Import Permutation.

(** After any history of a table: a lookup looks at most at one slot more than have been used since the table
    was created or grown, and so at most at one more than there have been additions; without removals it is one
    more than there are entries.  The search for a free slot looks at most at one slot more than there are entries,
    removals or not.  The size of the table is less than four times the largest number of entries it ever had, or
    the size it was created with. *)
Theorem C87_cost : forall K D (P : K -> Prop) hf cmp ps n (ops : list (hop K D)),
  48 <= ps -> 0 < n -> cmp_ok P hf cmp -> Forall (fun o => P (op_key o)) ops ->
  exists t0 t rs, create_hashtable ps n hf cmp = Ok t0 /\ hrun t0 ops = Ok (t, rs) /\
    (forall k m, used_slots t < Z.of_nat m -> exists r, lookup t k = Ok r /\ lookup_within m t k = Ok r) /\
    used_slots t <= ht_size t /\ used_slots t <= count_adds ops /\
    (no_removals ops -> used_slots t = inuse_slots t) /\
    (forall v m, inuse_slots t < Z.of_nat m -> inuse_slots t < ht_size t -> exists i, probe_within m t v = Ok (true, i)) /\
    (forall B, (forall pre suf t1 ys, ops = pre ++ suf -> hrun t0 pre = Ok (t1, ys) -> inuse_slots t1 <= B) ->
       ht_size t <= Z.max (ht_size t0) (4 * B - 2)).
Proof.
  intros K D P hf cmp ps n ops Hps Hn CO HP.
  destruct (create_spec (D := D) ps n hf cmp Hps Hn) as (t0 & H0 & I0 & _).
  destruct (hrun_bag P hf cmp CO ops t0 [] [] I0) as (t & xs & l & c & H1 & I1 & _ & _); auto; try constructor.
  destruct (hrun_facts P hf cmp CO ops t0 [] [] t xs I0) as (_ & U & C & _ & _ & HB); auto; try constructor.
  exists t0, t, xs. split; [auto|]. split; [auto|]. split; [|split; [|split; [|split; [|split]]]].
  - intros k m Hm. rewrite (within_used t l c k m I1 Hm). destruct (lookup_spec t l c k I1) as [(i & e & k' & dt & H & _)|[H _]]; eauto.
  - eapply used_le_size; eauto.
  - assert (used_slots t0 = 0) as E0.
    { rewrite (clean_used _ (create_clean _ _ _ _ _ H0)), (inuse_count I0), (inv_count _ _ _ _ _ I0). reflexivity. }
    lia.
  - intros NR. apply clean_used. apply C; [auto|]. eapply create_clean; eauto.
  - intros v m Hm Hfull. rewrite (probe_inuse t l c v m I1 Hm). pose proof (inv_len _ _ _ _ _ I1) as HL. pose proof (inv_pos _ _ _ _ _ I1) as Hp.
    pose proof (start_lt I1 v) as Hs.
    destruct (insert_probe_spec (ht_table t) (start t v) Hs (length (ht_table t)) 0) as [(d0 & e0 & _ & Ep & _)|Hall]; try lia.
    + rewrite slot_0 in Ep by auto. unfold probe_within. rewrite (to_nat_size I1). fold (start t v). eauto.
    + apply (all_inuse_count I1) in Hall. rewrite (inuse_count I1), (inv_count _ _ _ _ _ I1) in Hfull. lia.
  - exact HB.
Qed.
Print Assumptions C87_cost.

(** The table of wrapped functions, in which dlsym and the update of a library look names up: after any history a
    lookup looks at most at one slot more than there are different names in the history and GOTCHA's own four,
    however often the functions have been wrapped, reordered and looked up. *)
Theorem C87_functions : forall e maps mem ops st rs names, 48 <= e_ps e ->
  run e (init_state maps mem) ops = Ok (st, rs) -> s_init st = true ->
  incl (named ops) names -> incl own_names names ->
  forall name m, (length names < m)%nat ->
    exists r, lookup (b_fn (s_b st)) name = Ok r /\ lookup_within m (b_fn (s_b st)) name = Ok r.
Proof.
  intros e maps mem ops st rs names PS E I HN HO name m Hm.
  pose proof (run_ready names e PS HO ops (init_state maps mem) st rs eq_refl HN E) as R. unfold ready in R. rewrite I in R.
  eapply tidy_within; [apply (k_fn _ _ R)|auto].
Qed.
Print Assumptions C87_functions.

(** A slot is never returned: once every slot has been used, every lookup that finds nothing looks at all of
    them, and that stays so until the table grows, however few entries it has. *)
Theorem C87_worn_law : forall K D (P : K -> Prop) hf cmp ps n (ops ops' : list (hop K D)) t0 t rs t' rs',
  48 <= ps -> 0 < n -> cmp_ok P hf cmp -> Forall (fun o => P (op_key o)) (ops ++ ops') ->
  create_hashtable ps n hf cmp = Ok t0 -> hrun t0 ops = Ok (t, rs) -> worn t ->
  hrun t ops' = Ok (t', rs') -> ht_size t' = ht_size t ->
  forall k, lookup t' k = Ok None -> forall m, Z.of_nat m < ht_size t' -> lookup_within m t' k = Fault NoTermination.
Proof.
  intros K D P hf cmp ps n ops ops' t0 t rs t' rs' Hps Hn CO HP H0 H1 W H2 Hs k L m Hm.
  apply Forall_app in HP as [HP HP'].
  destruct (create_spec (D := D) ps n hf cmp Hps Hn) as (t0' & H0' & I0 & _). assert (t0' = t0) by congruence. subst t0'.
  destruct (hrun_bag P hf cmp CO ops t0 [] [] I0) as (t2 & xs & l & c & E1 & I1 & K1 & _); auto; try constructor.
  assert (t2 = t) by congruence. subst t2.
  destruct (hrun_facts P hf cmp CO ops' t l c t' rs' I1 K1 HP' H2) as ((l' & c' & I') & _ & _ & _ & Hw & _).
  eapply worn_lookup; eauto.
Qed.
Print Assumptions C87_worn_law.

(** Lookups are not bounded by the number of entries: for every size of table there is a history after which
    the table is empty and every lookup looks at every slot. *)
Theorem C87_entries_refuted : forall ps n, 48 <= ps -> 0 < n ->
  exists hf cmp t0, cmp_ok (fun _ => True) hf cmp /\ create_hashtable (K := Z) (D := Z) ps n hf cmp = Ok t0 /\
    (ht_size t0 <= two64 -> exists t rs, hrun t0 (churn (Z.to_nat (ht_size t0))) = Ok (t, rs) /\ inuse_slots t = 0 /\ worn t /\ n <= ht_size t /\
       forall k, lookup t k = Ok None /\ forall m, Z.of_nat m < ht_size t -> lookup_within m t k = Fault NoTermination).
Proof.
  intros ps n Hps Hn. destruct (create_spec (D := Z) ps n idz cmpz Hps Hn) as (t0 & H0 & I0 & Hs).
  exists idz, cmpz, t0. split; [apply cmpz_ok|]. split; [auto|]. intros Hb.
  destruct (churn_spec t0 (Z.to_nat (ht_size t0)) I0 Hb (create_stat _ _ _ _ _ H0)) as (t & xs & H1 & I1 & S1 & St); [lia|].
  exists t, xs. split; [auto|]. split; [rewrite (inuse_count I1), (inv_count _ _ _ _ _ I1); reflexivity|].
  assert (W : worn t).
  { apply worn_stat. rewrite St, Nat.sub_diag. cbn [repeat]. rewrite app_nil_r. intros H. apply repeat_spec in H. discriminate. }
  split; [auto|]. split; [lia|]. intros k.
  assert (L : lookup t k = Ok None).
  { destruct (lookup_spec t [] [] k I1) as [(i & e & k' & dt & _ & He & Hes & _)|[H _]]; [|auto]. destruct (inv_inuse _ _ _ _ _ I1 _ _ He Hes). }
  split; [auto|]. intros m Hm. eapply worn_lookup; eauto.
Qed.
Print Assumptions C87_entries_refuted.

(** Four slots; 0, 4 and 8 have the same home.  After adding 0 and 4 and removing 0, one entry is left and two slots have
    been used: looking for 8 takes three slots, and finding a place for 8 takes one. *)
Definition four (ops : list (hop Z Z)) : outcome (htable Z Z * list (hres Z)) :=
  do t <- create_hashtable 192 4 idz cmpz; hrun t ops.
Definition four_t (ops : list (hop Z Z)) : htable Z Z := match four ops with Ok (t, _) => t | Fault _ => zero_table end.
Example C87_ex : let ops := [HAdd 0 10; HAdd 4 11; HRemove 0] in let t := four_t ops in
  four ops = Ok (t, [RAdded; RAdded; RRemoved true]) /\ ht_size t = 4 /\ used_slots t = 2 /\ inuse_slots t = 1 /\ count_adds ops = 2 /\
  lookup_within 3 t 8 = Ok None /\ lookup_within 2 t 8 = Fault NoTermination /\ lookup_within 2 t 4 = Ok (Some 1%nat) /\ lookup_within 1 t 4 = Fault NoTermination /\
  probe_within 1 t 8 = Ok (true, 0%nat).
Proof. vm_compute. repeat split. Qed.
(** the fourth addition finds three of four slots in use and doubles the table: 8 <= 4 * 3 - 2 *)
Example C87_ex_grow : let t := four_t [HAdd 0 10; HAdd 4 11; HAdd 8 12; HAdd 1 13] in ht_size t = 8 /\ inuse_slots t = 4 /\
  ht_size (four_t [HAdd 0 10; HAdd 4 11; HAdd 8 12]) = 4.
Proof. vm_compute. repeat split. Qed.
Example C87_ex_worn : let t := four_t (churn 4) in inuse_slots t = 0 /\ used_slots t = 4 /\ lookup_within 3 t 7 = Fault NoTermination /\ lookup_within 4 t 7 = Ok None /\
  (* a hundred further uses of one key do not help, three entries at once do *)
  lookup_within 3 (four_t (churn 4 ++ concat (repeat [HAdd 5 1; HRemove 5] 100))) 7 = Fault NoTermination /\
  lookup_within 1 (four_t (churn 4 ++ [HAdd 0 1; HAdd 1 1; HAdd 2 1; HAdd 3 1])) 7 = Ok None.
Proof. vm_compute. repeat split. Qed.

(** f is wrapped by four tools, each above the one before: every time its entry is taken out and put back, and still the
    table has used one slot for each name. *)
Definition climbing : list op :=
  [OSetPriority n_a 1; OWrap [mkUB f_name 11 1] (Some n_a); OSetPriority n_b 2; OWrap [mkUB f_name 21 3] (Some n_b);
   OSetPriority [99] 3; OWrap [mkUB f_name 31 5] (Some [99]); OSetPriority [100] 4; OWrap [mkUB f_name 41 7] (Some [100])].
Definition climbing_fn : htable cstr nat := b_fn (s_b (st_of (demo_run climbing))).
Example C87_ex_functions : is_ok (demo_run climbing) = true /\ s_init (st_of (demo_run climbing)) = true /\ 48 <= e_ps demo_env /\
  named climbing = [f_name; f_name; f_name; f_name] /\
  incl (named climbing) (f_name :: own_names) /\ used_slots climbing_fn = 3 /\ inuse_slots climbing_fn = 3 /\
  (lookup_within 1 climbing_fn f_name <> Fault NoTermination) /\ outermost (st_of (demo_run climbing)) f_name = Ok (Some 41).
Proof.
  assert (forallb (fun n => cstr_eqb n f_name) (named climbing) = true) as H by (vm_compute; reflexivity).
  split; [vm_compute; reflexivity|]. split; [vm_compute; reflexivity|]. split; [vm_compute; discriminate|]. split; [vm_compute; reflexivity|].
  split; [|split; [vm_compute; reflexivity|split; [vm_compute; reflexivity|split; [vm_compute; discriminate|vm_compute; reflexivity]]]].
  intros n Hn. rewrite forallb_forall in H. specialize (H n Hn). apply cstr_eqb_ok in H. subst n. left. reflexivity.
Qed.
