(** Property C88: a lookup in one thread while another thread adds and removes entries of the table. *)
From Verif Require Import Base ListFacts HashModel SpecHash HashProofs HashTrace ToolModel CoreModel SpecCore SpecRun CoreMaps HashMoments SpecMoments MomentProofs SpecCost CostProofs CostTable RaceCores RaceModel SpecRace RaceProofs PropsMoments PropsElf Demo PropsCoreEx PropsCost.
Open Scope list_scope.
Open Scope Z_scope.
From Coq Require Import Permutation.

Notation adds := (map (fun p => HAdd (fst p) (snd p))).

(** The reader without the writer is lookup_hashtable, on any table whatsoever that has a comparison function. *)
Lemma race_app K D (k : K) a b : forall (w : wstate K D) pc, race k (a ++ b) w pc = (do ' (w1, pc1) <- race k a w pc; race k b w1 pc1).
Proof.
  induction a as [|x a IH]; intros w pc; cbn [app race bind]; [reflexivity|]. destruct x; [destruct (wstep w)|destruct (rstep k (w_table w) pc)]; cbn [bind]; auto.
Qed.
Lemma race_one K D (k : K) q (w : wstate K D) pc pc' : rstep k (w_table w) pc = Ok pc' -> race k (repeat false (S q)) w pc = race k (repeat false q) w pc'.
Proof. intros E. cbn [repeat race]. rewrite E. reflexivity. Qed.
Lemma loop_alone K D (k : K) cmp h (w : wstate K D) s n : ht_keycmp (w_table w) = Some cmp -> n = Z.to_nat (ht_size (w_table w)) ->
  forall f j, exists q, match lookup_loop f (ht_table (w_table w)) n cmp k h j s with
    | Ok (Some i) => race k (repeat false q) w (RStatus h j s) = Ok (w, RKey h i s) /\ rstep k (w_table w) (RKey h i s) = Ok (RData i)
    | Ok None => race k (repeat false q) w (RStatus h j s) = Ok (w, RDone None)
    | Fault NoTermination => True
    | Fault x => race k (repeat false q) w (RStatus h j s) = Fault x
    end.
Proof.
  intros C En. induction f as [|f IH]; intros j; [exists O; exact Logic.I|]. cbn [lookup_loop]. destruct (nth_error (ht_table (w_table w)) j) as [e|] eqn:He; [|exists 1%nat; cbn; rewrite He; reflexivity].
  (* from the second read of the status on *)
  assert (Ag : exists q, match (match he_status e with EMPTY => Ok None | _ => let index' := if Nat.eqb (S j) n then O else S j in if Nat.eqb index' s then Ok None else lookup_loop f (ht_table (w_table w)) n cmp k h index' s end) with
    | Ok (Some i) => race k (repeat false q) w (RAgain h j s) = Ok (w, RKey h i s) /\ rstep k (w_table w) (RKey h i s) = Ok (RData i)
    | Ok None => race k (repeat false q) w (RAgain h j s) = Ok (w, RDone None)
    | Fault NoTermination => True
    | Fault x => race k (repeat false q) w (RAgain h j s) = Fault x
    end).
  { destruct (IH (if Nat.eqb (S j) n then O else S j)) as (q & Hq). cbn zeta.
    assert (St : forall pc', pc' = (if Nat.eqb (if Nat.eqb (S j) n then O else S j) s then RDone None else RStatus h (if Nat.eqb (S j) n then O else S j) s) -> he_status e <> EMPTY ->
      forall q, race k (repeat false (S (S q))) w (RAgain h j s) = race k (repeat false q) w pc').
    { intros pc' -> Ne q0. rewrite (race_one _ _ _ _ _ _ (RNext h j s)); [|cbn [rstep]; rewrite He; destruct (he_status e); [congruence|reflexivity|reflexivity]]. apply race_one. cbn [rstep]. rewrite <- En. reflexivity. }
    destruct (he_status e) eqn:Se; [exists 1%nat; cbn; rewrite He, Se; reflexivity| |].
    all: specialize (St _ eq_refl ltac:(discriminate)); destruct (Nat.eqb (if Nat.eqb (S j) n then O else S j) s); [exists 2%nat; rewrite St; reflexivity|exists (S (S q)); rewrite St; exact Hq]. }
  destruct Ag as (q & Ag). destruct (he_status e) eqn:Se; cbn [bind].
  - exists (S q). rewrite (race_one _ _ _ _ _ _ (RAgain h j s)) by (cbn [rstep]; rewrite He, Se; reflexivity). exact Ag.
  - exists (S q). rewrite (race_one _ _ _ _ _ _ (RAgain h j s)) by (cbn [rstep]; rewrite He, Se; reflexivity). exact Ag.
  - assert (R1 : forall q0, race k (repeat false (S q0)) w (RStatus h j s) = race k (repeat false q0) w (RHash h j s)) by (intros; apply race_one; cbn [rstep]; rewrite He, Se; reflexivity).
    destruct (he_hash e =? h) eqn:Eh; cbn [bind].
    + assert (R2 : forall q0, race k (repeat false (S q0)) w (RHash h j s) = race k (repeat false q0) w (RKey h j s)) by (intros; apply race_one; cbn [rstep]; rewrite He, Eh; reflexivity).
      destruct (he_key e) as [k'|] eqn:Ek; cbn [bind].
      * destruct (cmp k' k =? 0) eqn:Ec.
        { exists 2%nat. rewrite R1, R2. split; [reflexivity|]. cbn [rstep]. rewrite He, C, Ek, Ec. reflexivity. }
        exists (S (S (S q))). rewrite R1, R2, (race_one _ _ _ _ _ _ (RAgain h j s)) by (cbn [rstep]; rewrite He, C, Ek, Ec; reflexivity). exact Ag.
      * exists 3%nat. rewrite R1, R2. cbn [repeat race rstep]. rewrite He, C, Ek. reflexivity.
    + exists (S (S q)). rewrite R1, (race_one _ _ _ _ _ _ (RAgain h j s)) by (cbn [rstep]; rewrite He, Eh; reflexivity). exact Ag.
Qed.
Lemma loop_ends K D (k : K) cmp h (tbl : list (hentry K D)) n s : (s < n)%nat ->
  forall f d, (f + d = n)%nat -> (d < n)%nat -> lookup_loop f tbl n cmp k h (HashProofs.slot n s d) s <> Fault NoTermination.
Proof.
  intros Hs. induction f as [|f IH]; intros d Hf Hd; [lia|]. cbn [lookup_loop]. destruct (nth_error tbl (HashProofs.slot n s d)) as [e|]; [|discriminate].
  assert (Ag : (let index' := if Nat.eqb (S (HashProofs.slot n s d)) n then O else S (HashProofs.slot n s d) in if Nat.eqb index' s then Ok None else lookup_loop f tbl n cmp k h index' s) <> Fault NoTermination).
  { cbn zeta. destruct (Nat.eq_dec (S d) n) as [L|L]; [rewrite slot_step_last, Nat.eqb_refl by auto; discriminate|]. rewrite slot_step by lia. destruct (Nat.eqb _ s); [discriminate|]. apply IH; lia. }
  destruct (he_status e); cbn [bind]; [discriminate|exact Ag|]. destruct (he_hash e =? h); cbn [bind]; [|exact Ag]. destruct (he_key e); cbn [bind]; [|discriminate]. destruct (cmp k0 k =? 0); [discriminate|exact Ag].
Qed.
Theorem C88_reader : forall K D (t : htable K D) k pend todo, ht_keycmp t <> None -> 0 <= ht_size t ->
  exists q, race k (repeat false q) (mkW t pend todo) RStart =
    match lookup_hashtable t k with Ok r => Ok (mkW t pend todo, RDone r) | Fault f => Fault f end.
Proof.
  intros K D t k pend todo Hc Hsz. unfold lookup_hashtable, lookup. destruct (ht_keycmp t) as [cmp|] eqn:C; [|congruence]. clear Hc. set (w := mkW t pend todo).
  destruct (ht_hashfunc t) as [hf|] eqn:Hh; [|exists 1%nat; cbn; rewrite Hh; reflexivity]. destruct (ht_size t =? 0) eqn:Z0; [exists 1%nat; cbn; rewrite Hh, Z0; reflexivity|].
  set (j := Z.to_nat (u64 (hf k) mod ht_size t)). destruct (loop_alone K D k cmp (hf k) w j _ C eq_refl (Z.to_nat (ht_size t)) j) as (q & L). cbn [w w_table] in L.
  assert (R0 : forall q0, race k (repeat false (S q0)) w RStart = race k (repeat false q0) w (RStatus (hf k) j j)) by (intros; apply race_one; cbn [w w_table rstep]; rewrite Hh, Z0; reflexivity).
  assert (NT : lookup_loop (Z.to_nat (ht_size t)) (ht_table t) (Z.to_nat (ht_size t)) cmp k (hf k) j j <> Fault NoTermination).
  { destruct (Z_lt_le_dec 0 (ht_size t)) as [Hp|Hn].
    - assert (Hj : (j < Z.to_nat (ht_size t))%nat) by (subst j; pose proof (Z.mod_pos_bound (u64 (hf k)) (ht_size t) Hp); lia).
      pose proof (loop_ends K D k cmp (hf k) (ht_table t) _ j Hj (Z.to_nat (ht_size t)) 0) as X. rewrite slot_0 in X by exact Hj. apply X; lia.
    - apply Z.eqb_neq in Z0. lia. }
  destruct (lookup_loop _ _ _ _ _ _ _ _) as [[i|]|x]; cbn [bind].
  - destruct L as [L1 L2]. exists (S (q + 2)). rewrite R0, repeat_app, race_app. fold w in L1. rewrite L1. cbn [bind]. change (repeat false 2) with [false; false]. cbn [race]. unfold w at 1. cbn [w_table]. rewrite L2. cbn [bind rstep w w_table]. destruct (nth_error (ht_table t) i) as [e|]; [|reflexivity]. destruct (he_data e); reflexivity.
  - exists (S q). rewrite R0. exact L.
  - exists (S q). rewrite R0. destruct x; try exact L. congruence.
Qed.
Print Assumptions C88_reader.

(** The writer without the reader makes the additions and removals, growth or not. *)
Lemma op_stores_ok K D (t : htable K D) o l : op_stores t o = Ok l -> (forall k, o <> HLookup k) -> exists x, hstep t o = Ok (happlys l t, x).
Proof.
  destruct o as [k d|k|k]; cbn [op_stores hstep]; intros E N; [| |destruct (N k eq_refl)].
  - pose proof (add_stores_ok t k d) as A. rewrite E in A. rewrite A. cbn [bind]. eauto.
  - pose proof (remove_stores_ok t k) as A. rewrite E in A. destruct A as (b & A). rewrite A. cbn [bind]. eauto.
Qed.
Lemma writer_left K D (w w1 : wstate K D) : wstep w = Ok w1 -> (forall k, ~ In (HLookup k) (w_todo w)) ->
  incl (w_todo w1) (w_todo w) /\ forall t ys, hrun (happlys (w_pend w1) (w_table w1)) (w_todo w1) = Ok (t, ys) -> exists ys', hrun (happlys (w_pend w) (w_table w)) (w_todo w) = Ok (t, ys').
Proof.
  destruct w as [u pd td]. unfold wstep. cbn [w_table w_pend w_todo]. destruct pd as [|s pd].
  - destruct td as [|o td]; [intros E _; injection E as <-; split; [apply incl_refl|eauto]|]. intros E N. destruct (op_stores u o) as [l|] eqn:A; cbn [bind] in E; [|discriminate E].
    injection E as <-. cbn [w_table w_pend w_todo]. split; [apply incl_tl, incl_refl|]. intros t ys E. destruct (op_stores_ok _ _ _ _ _ A) as (x & H); [intros k ->; apply (N k); left; reflexivity|]. cbn [hrun happlys fold_left]. rewrite H. cbn [bind]. rewrite E. cbn [bind]. eauto.
  - intros E _. injection E as <-. split; [apply incl_refl|eauto].
Qed.
Theorem C88_writer : forall K D n (t : htable K D) todo w, (forall k, ~ In (HLookup k) todo) -> wsteps n (mkW t [] todo) = Ok w -> w_pend w = [] -> w_todo w = [] ->
  exists ys, hrun t todo = Ok (w_table w, ys).
Proof.
  intros K D n t todo w N E E1 E2.
  assert (G : forall n (w0 w : wstate K D), (forall k, ~ In (HLookup k) (w_todo w0)) -> wsteps n w0 = Ok w -> w_pend w = [] -> w_todo w = [] -> exists ys, hrun (happlys (w_pend w0) (w_table w0)) (w_todo w0) = Ok (w_table w, ys)).
  { clear. induction n as [|n IH]; intros w0 w N E E1 E2; cbn [wsteps] in E.
    - injection E as <-. rewrite E1, E2. cbn. eauto.
    - destruct (wstep w0) as [w1|] eqn:S1; cbn [bind] in E; [|discriminate E]. destruct (writer_left _ _ _ _ S1 N) as [I L]. destruct (IH w1 w) as (ys & H); auto; [intros k Hk; apply (N k); auto|]. apply (L _ _ H). }
  exact (G n (mkW t [] todo) w N E E1 E2).
Qed.
Print Assumptions C88_writer.

Lemma absent_split K D eqb (l todo : list (hop K D)) : forall m, adds_absent eqb m (l ++ todo) -> adds_absent eqb m l /\ adds_absent eqb (fst (SpecHash.arun eqb m l)) todo.
Proof.
  induction l as [|o l IH]; intros m H; cbn [app adds_absent SpecHash.arun fst] in *; [auto|]. destruct H as [H1 H2]. destruct (IH _ H2) as [H3 H4]. split; [auto|]. destruct (SpecHash.astep eqb m o) as [m1 x]. cbn [fst] in *. destruct (SpecHash.arun eqb m1 l). exact H4.
Qed.
(** Any table with any history; additions and removals, none of which makes the table grow, of keys with other hash values than the one
    looked up in so far as they are removed; any number of steps of the writer before the lookup starts and any interleaving then.  Neither
    thread crashes, the lookup ends after at most five reads per slot and one, and it answers as if it had happened at one moment
    between its start and its end. *)
Theorem C88_race : forall K D (P : K -> Prop) hf cmp eqb ps n (ops : list (hop K D)) t0 t rs todo before sched k,
  48 <= ps -> 0 < n -> cmp_ok P hf cmp -> eqb_ok eqb -> Forall (fun o => P (op_key o)) (ops ++ todo) -> adds_absent eqb [] (ops ++ todo) ->
  create_hashtable ps n hf cmp = Ok t0 -> hrun t0 ops = Ok (t, rs) -> P k ->
  let m := fst (SpecHash.arun eqb [] ops) in fits eqb (ht_size t) todo m -> away hf todo k ->
  exists w w' pc, wsteps before (mkW t [] todo) = Ok w /\ race k sched w RStart = Ok (w', pc) /\
    (5 * Z.to_nat (ht_size t) < reads sched -> exists r, pc = RDone r)%nat /\
    (forall r, pc = RDone r -> exists i, (finished todo w <= i <= begun todo w')%nat /\ r = aget eqb (after eqb i todo m) k).
Proof.
  intros K D P hf cmp eqb ps n ops t0 t rs todo before sched k Hps Hn CO EO HP HA E0 E Pk m HF HW. apply Forall_app in HP as [HP HPn].
  destruct (absent_split _ _ _ _ _ _ HA) as [HA' HAn]. destruct (reached K D P hf cmp eqb ps n ops t0 t rs) as (l & c & I & KI & N & M); auto.
  eapply race_result; eauto. eapply hrun_blank; [exact E|]. eapply create_blank. exact E0.
Qed.
Print Assumptions C88_race.

(** An entry that is there at the start and not removed is found by every lookup, whatever the interleaving. *)
Lemma stays_there K D eqb (EO : eqb_ok eqb) k d (todo : list (hop K D)) : forall m, adds_absent eqb m todo -> (forall r, In (HRemove r) todo -> r <> k) -> aget eqb m k = Some d -> forall i, aget eqb (after eqb i todo m) k = Some d.
Proof.
  unfold after. induction todo as [|o todo IH]; intros m HA HR L i; [rewrite firstn_nil; exact L|]. destruct i as [|i]; [exact L|]. cbn [firstn SpecHash.arun]. destruct HA as [A1 A2]. destruct (SpecHash.astep eqb m o) as [m1 x] eqn:S. cbn [fst] in A2.
  assert (L1 : aget eqb m1 k = Some d).
  { destruct o as [k1 d1|k1|k1]; cbn [SpecHash.astep] in S; injection S as <- _.
    - unfold aget in *. cbn [find fst]. destruct (eqb k1 k) eqn:Ek; [apply EO in Ek; subst k1; rewrite L in A1; discriminate A1|exact L].
    - rewrite (aget_arem eqb EO). destruct (eqb k k1) eqn:Ek; [|exact L]. apply EO in Ek. subst k1. destruct (HR k (or_introl eq_refl) eq_refl).
    - exact L. }
  specialize (IH m1 A2 (fun r H => HR r (or_intror H)) L1 i). destruct (SpecHash.arun eqb m1 (firstn i todo)). exact IH.
Qed.
Theorem C88_present : forall K D (P : K -> Prop) hf cmp eqb ps n (ops : list (hop K D)) t0 t rs todo before sched k d w w' r,
  48 <= ps -> 0 < n -> cmp_ok P hf cmp -> eqb_ok eqb -> Forall (fun o => P (op_key o)) (ops ++ todo) -> adds_absent eqb [] (ops ++ todo) ->
  create_hashtable ps n hf cmp = Ok t0 -> hrun t0 ops = Ok (t, rs) -> P k -> fits eqb (ht_size t) todo (fst (SpecHash.arun eqb [] ops)) -> away hf todo k ->
  lookup_hashtable t k = Ok (Some d) -> wsteps before (mkW t [] todo) = Ok w -> race k sched w RStart = Ok (w', RDone r) -> r = Some d.
Proof.
  intros K D P hf cmp eqb ps n ops t0 t rs todo before sched k d w w' r Hps Hn CO EO HP HA E0 E Pk HF HW L Ew Er.
  destruct (C88_race K D P hf cmp eqb ps n ops t0 t rs todo before sched k) as (w1 & w1' & pc & Ew1 & Er1 & _ & R); auto. rewrite Ew in Ew1. injection Ew1 as <-. rewrite Er in Er1. injection Er1 as <- <-.
  destruct (R r eq_refl) as (i & _ & ->). destruct (absent_split _ _ _ _ _ _ HA) as [HA' HAn]. apply stays_there; auto.
  - intros x Hx ->. destruct (HW k Hx) as [Ne _]. apply Ne. reflexivity.
  - apply Forall_app in HP as [HP _]. destruct (reached K D P hf cmp eqb ps n ops t0 t rs) as (l & c & I & KI & N & M); auto.
    pose proof (inv_answers K D P hf cmp eqb t l c _ CO EO I KI N M k Pk) as A. congruence.
Qed.
Print Assumptions C88_present.

(** The key itself is another matter: for every entry there is an interleaving in which the lookup of its key, running alongside its removal,
    hands a null key to the comparison function. *)
Lemma remove_crash K D hf cmp (t : htable K D) l c k d rest : ht_inv hf cmp t l c -> lookup_hashtable t k = Ok (Some d) ->
  exists sched, race k sched (mkW t [] (HRemove k :: rest)) RStart = Fault NullDeref.
Proof.
  intros I L. unfold lookup_hashtable in L. destruct (lookup t k) as [[i|]|] eqn:Lk; cbn [bind] in L; try discriminate L. pose proof Lk as Lk0. unfold lookup in Lk. rewrite (inv_hf _ _ _ _ _ I), (inv_cmp _ _ _ _ _ I) in Lk.
  destruct (ht_size t =? 0) eqn:Z0; [discriminate Lk|]. set (j := Z.to_nat (u64 (hf k) mod ht_size t)) in *. set (w := mkW t [] (HRemove k :: rest)).
  destruct (loop_alone K D k cmp (hf k) w j _ (inv_cmp _ _ _ _ _ I) eq_refl (Z.to_nat (ht_size t)) j) as (q & A). change (w_table w) with t in A. rewrite Lk in A. destruct A as [A _].
  exists (repeat false (S q) ++ [true; true; false]). rewrite race_app, (race_one _ _ _ _ _ _ (RStatus (hf k) j j)) by (cbn [w w_table rstep]; rewrite (inv_hf _ _ _ _ _ I), Z0; reflexivity). fold w. rewrite A. cbn [bind race].
  unfold wstep at 1. cbn [w w_pend w_todo w_table op_stores]. unfold remove_stores. rewrite Lk0. cbn [bind]. destruct (nth_error (ht_table t) i) as [e|] eqn:He; [|discriminate L]. cbn [bind app]. unfold wstep. cbn [w_pend w_table w_todo bind happly rstep set_arr ht_table ht_keycmp].
  rewrite nth_error_upd, Nat.eqb_refl, He. cbn [option_map he_key]. rewrite (inv_cmp _ _ _ _ _ I). reflexivity.
Qed.
Theorem C88_removal_law : forall K D (P : K -> Prop) hf cmp ps n (ops : list (hop K D)) t0 t rs k d rest,
  48 <= ps -> 0 < n -> cmp_ok P hf cmp -> Forall (fun o => P (op_key o)) ops -> create_hashtable ps n hf cmp = Ok t0 -> hrun t0 ops = Ok (t, rs) ->
  lookup_hashtable t k = Ok (Some d) -> exists sched, race k sched (mkW t [] (HRemove k :: rest)) RStart = Fault NullDeref.
Proof.
  intros K D P hf cmp ps n ops t0 t rs k d rest Hps Hn CO HP E0 E L.
  destruct (create_spec (D := D) ps n hf cmp Hps Hn) as (t1 & H0 & I0 & _). rewrite E0 in H0. injection H0 as <-.
  destruct (hrun_bag P hf cmp CO ops t0 [] [] I0) as (t' & xs & l' & c' & H1 & I & _); auto; [constructor|]. rewrite E in H1. injection H1 as <- _. eapply remove_crash; eauto.
Qed.
Print Assumptions C88_removal_law.

(** If the table is more than half full, the addition makes it grow, and there is an interleaving in which the lookup of any key divides
    by zero. *)
Theorem C88_growth_law : forall K D (P : K -> Prop) hf cmp ps n (ops : list (hop K D)) t0 t rs k d,
  48 <= ps -> 0 < n -> cmp_ok P hf cmp -> Forall (fun o => P (op_key o)) ops -> create_hashtable ps n hf cmp = Ok t0 -> hrun t0 ops = Ok (t, rs) ->
  ht_size t / 2 < inuse_slots t -> forall k', race k' [true; true; false] (mkW t [] [HAdd k d]) RStart = Fault DivByZero.
Proof.
  intros K D P hf cmp ps n ops t0 t rs k d Hps Hn CO HP E0 E Hg k'.
  destruct (create_spec (D := D) ps n hf cmp Hps Hn) as (t1 & H0 & I0 & _). rewrite E0 in H0. injection H0 as <-.
  destruct (hrun_bag P hf cmp CO ops t0 [] [] I0) as (t' & xs & l' & c' & H1 & I & _); auto; [constructor|]. rewrite E in H1. injection H1 as <- _. rewrite (inuse_count I) in Hg.
  destruct (addto_spec t l' c' k d I) as (ta & la & ca & A & Ia & _). pose proof (add_stores_ok t k d) as HS. cbn [race]. unfold wstep at 1. cbn [w_table w_pend w_todo op_stores].
  unfold add_stores in *. destruct (grow_size _ _ _) as [ns|] eqn:G; cbn [bind] in *; [|congruence]. destruct (Z.eqb_spec ns (ht_size t)) as [X|X].
  { exfalso. pose proof (inv_pos _ _ _ _ _ I) as Hpos. pose proof (inv_load _ _ _ _ _ I) as Hload. assert (0 <= ht_size t / 2) by (apply Z.div_pos; lia).
    destruct (grow_size_spec (S (S (Z.to_nat (ht_count t)))) (ht_count t) (ht_size t)) as (ns' & G' & L & _); [lia|lia|lia|]. rewrite G in G'. injection G' as <-. subst ns. lia. }
  destruct (grow_hashtable t ns) as [tg|]; cbn [bind] in *; [|congruence]. destruct (ht_hashfunc tg) as [hf'|]; [|congruence]. destruct (insert_stores tg k d (hf' k)) as [li|]; cbn [bind] in *; [|congruence].
  cbn. rewrite (inv_hf _ _ _ _ _ I). reflexivity.
Qed.
Print Assumptions C88_growth_law.

(** The table of wrapped functions after any history is such a table: a set [m] of entries, one per name.  dlsym in one thread looks a name
    up while gotcha_wrap in another enters functions and replaces entries of functions wrapped already. *)
Theorem C88_functions_partial : forall e maps mem ops st rs, 48 <= e_ps e -> run e (init_state maps mem) ops = Ok (st, rs) -> s_init st = true ->
  let t := b_fn (s_b st) in exists m, NoDup (map fst m) /\ (forall name, lookup_hashtable t name = Ok (aget cstr_eqb m name)) /\ inuse_slots t = Z.of_nat (length m) /\
  forall todo before sched name, adds_absent cstr_eqb m todo -> fits cstr_eqb (ht_size t) todo m -> away strhash todo name ->
  exists w w' pc, wsteps before (mkW t [] todo) = Ok w /\ race name sched w RStart = Ok (w', pc) /\
    (5 * Z.to_nat (ht_size t) < reads sched -> exists r, pc = RDone r)%nat /\
    (forall r, pc = RDone r -> exists i, (finished todo w <= i <= begun todo w')%nat /\ r = aget cstr_eqb (after cstr_eqb i todo m) name).
Proof.
  intros e maps mem ops st rs PS E I t.
  pose proof (run_ready (named ops ++ own_names) e PS (incl_appr _ (incl_refl _)) ops (init_state maps mem) st rs eq_refl (incl_appl _ (incl_refl _)) E) as R. unfold ready in R. rewrite I in R.
  destruct (k_fn _ _ R) as (f & Sf & _ & _ & Bl). fold t in Sf, Bl. pose proof (fun n => smap_lookup _ _ n Sf) as Lk. destruct Sf as (l & c & Iv & KI & Nc & F). exists c. split; [exact Nc|]. split; [intros n; rewrite F; apply Lk|]. split; [rewrite (inuse_count Iv), (inv_count_c Iv); reflexivity|].
  intros todo before sched name HA HF HW. apply (race_result cstr nat anyk strhash libc_strcmp cstr_eqb t l c c todo before sched name); auto; [apply strcmp_cmp_ok|exact cstr_eqb_ok|apply Forall_forall; intros; exact Logic.I|exact Logic.I].
Qed.
Print Assumptions C88_functions_partial.

(** Functions not wrapped so far, in plain words: the lookup finds the functions wrapped before, and of the new ones those of one moment
    between its start and its end. *)
Theorem C88_new_functions_partial : forall e maps mem ops st rs new before sched name,
  48 <= e_ps e -> run e (init_state maps mem) ops = Ok (st, rs) -> s_init st = true ->
  (forall p, In p new -> lookup_hashtable (b_fn (s_b st)) (fst p) = Ok None) -> NoDup (map fst new) ->
  inuse_slots (b_fn (s_b st)) + Z.of_nat (length new) <= ht_size (b_fn (s_b st)) / 2 + 1 ->
  exists old w w' pc, lookup_hashtable (b_fn (s_b st)) name = Ok old /\ wsteps before (mkW (b_fn (s_b st)) [] (adds new)) = Ok w /\ race name sched w RStart = Ok (w', pc) /\
    (5 * Z.to_nat (ht_size (b_fn (s_b st))) < reads sched -> exists r, pc = RDone r)%nat /\
    (forall r, pc = RDone r -> exists i, (finished (adds new) w <= i <= begun (adds new) w')%nat /\
       (r = old /\ (forall p, In p (firstn i new) -> fst p <> name) \/ exists b, r = Some b /\ In (name, b) (firstn i new))).
Proof.
  intros e maps mem ops st rs new before sched name PS E I Abs ND HG. destruct (C88_functions_partial e maps mem ops st rs PS E I) as (c & Nc & Lk & Cn & X). set (t := b_fn (s_b st)) in *.
  assert (HA : adds_absent cstr_eqb c (adds new)).
  { assert (Ag : forall p, In p new -> aget cstr_eqb c (fst p) = None) by (intros p Hp; specialize (Abs p Hp); rewrite Lk in Abs; congruence). clear -Ag ND. revert c Ag ND. induction new as [|[k1 d1] nw IH]; intros c Ag ND; cbn [map adds_absent fst snd SpecHash.astep] in *; [exact Logic.I|]. inversion ND as [|? ? N1 N2]; subst.
    split; [apply (Ag (k1, d1)); left; reflexivity|]. apply IH; [|exact N2]. intros p Hp. unfold aget in *. cbn [find fst]. destruct (cstr_eqb k1 (fst p)) eqn:Ek; [|apply (Ag p); right; exact Hp]. apply cstr_eqb_ok in Ek. subst k1. destruct N1. apply in_map. exact Hp. }
  assert (Af : forall i (q : list (cstr * nat)) c0, after cstr_eqb i (adds q) c0 = rev (firstn i q) ++ c0).
  { clear. unfold after. induction i as [|i IH]; intros q c0; [reflexivity|]. destruct q as [|[k1 d1] q]; [reflexivity|]. cbn [map firstn SpecHash.arun SpecHash.astep fst snd rev]. specialize (IH q ((k1, d1) :: c0)). destruct (SpecHash.arun cstr_eqb ((k1, d1) :: c0) (firstn i (adds q))). cbn [fst] in *. rewrite IH, <- app_assoc. reflexivity. }
  destruct (X (adds new) before sched name HA) as (w & w' & pc & Ew & Er & Dn & Rs).
  - intros i k d Hi. rewrite Af, app_length, rev_length. assert (i < length new)%nat by (rewrite <- (map_length (fun p => HAdd (fst p) (snd p)) new); eapply nth_error_Some_lt; exact Hi). rewrite firstn_length_le by lia. lia.
  - intros r Hr. apply in_map_iff in Hr as (p & Hp & _). discriminate Hp.
  - exists (aget cstr_eqb c name), w, w', pc. split; [apply Lk|]. split; [exact Ew|]. split; [exact Er|]. split; [exact Dn|]. intros r Hr. destruct (Rs r Hr) as (i & Li & ->). exists i. split; [exact Li|]. rewrite Af.
    assert (Fd : forall q : list (cstr * nat), (aget cstr_eqb (q ++ c) name = aget cstr_eqb c name /\ forall p, In p q -> fst p <> name) \/ exists b, aget cstr_eqb (q ++ c) name = Some b /\ In (name, b) q).
    { clear. induction q as [|[k1 d1] q IH]; cbn [app]; [left; split; [reflexivity|intros p []]|]. unfold aget in *. cbn [find fst]. destruct (cstr_eqb k1 name) eqn:Ek.
      - apply cstr_eqb_ok in Ek. subst k1. right. exists d1. split; [reflexivity|left; reflexivity].
      - destruct IH as [[A B]|(b & A & B)]; [left; split; [exact A|]|right; exists b; split; [exact A|right; exact B]]. intros p [<-|Hp]; [|auto]. cbn [fst]. intros ->. rewrite cstr_eqb_refl in Ek. discriminate Ek. }
    destruct (Fd (rev (firstn i new))) as [[A B]|(b & A & B)].
    + left. split; [exact A|]. intros p Hp. apply B. apply in_rev in Hp. exact Hp.
    + right. exists b. split; [exact A|]. apply in_rev. exact B.
Qed.
Print Assumptions C88_new_functions_partial.

(** Wrapping a function again replaces its entry: whatever the history, some interleaving makes a lookup of that very function crash. *)
Theorem C88_rewrap_law_partial : forall e maps mem ops st rs name b b', 48 <= e_ps e -> run e (init_state maps mem) ops = Ok (st, rs) -> s_init st = true ->
  lookup_hashtable (b_fn (s_b st)) name = Ok (Some b) ->
  exists sched, race name sched (mkW (b_fn (s_b st)) [] [HRemove name; HAdd name b']) RStart = Fault NullDeref.
Proof.
  intros e maps mem ops st rs name b b' PS E I L.
  pose proof (run_ready (named ops ++ own_names) e PS (incl_appr _ (incl_refl _)) ops (init_state maps mem) st rs eq_refl (incl_appl _ (incl_refl _)) E) as R. unfold ready in R. rewrite I in R.
  destruct (k_fn _ _ R) as (f & (l & c & Iv & _) & _). eapply remove_crash; eauto.
Qed.
Print Assumptions C88_rewrap_law_partial.

(** *** Examples *)
(** Four slots; 0 and 4 have the same home.  0 is there, 4 is being added, 4 is looked up. *)
Definition ex_new : list (hop Z Z) := [HAdd 4 11].
Definition ex_w : wstate Z Z := mkW (four_t [HAdd 0 10]) [] ex_new.
Definition ex_race (k : Z) (sched : list bool) : option (rpc Z * nat * nat) :=
  match race k sched ex_w RStart with Ok (w, pc) => Some (pc, finished ex_new w, begun ex_new w) | Fault _ => None end.
(** the hypotheses hold; ten steps of the writer make the addition *)
Example C88_ex_hyps : fits Z.eqb (ht_size (four_t [HAdd 0 10])) ex_new [(0, 10)] /\ adds_absent Z.eqb [] ([HAdd 0 10] ++ ex_new) /\ away idz ex_new 4 /\
  lookup_hashtable (four_t [HAdd 0 10]) 0 = Ok (Some 10) /\
  (match wsteps 10 ex_w with Ok w => (lookup_hashtable (w_table w) 4, w_pend w, w_todo w) | Fault _ => (Ok None, [], []) end) = (Ok (Some 11), [], []).
Proof.
  split; [intros [|[|i]] k d H; try discriminate H; vm_compute; discriminate|]. split; [vm_compute; auto|]. split; [intros r [H|[]]; discriminate H|]. vm_compute. split; reflexivity.
Qed.
(** the reader passes the first slot, the whole addition is made, the reader finds the new entry *)
Example C88_ex_found : ex_race 4 (repeat false 5 ++ repeat true 10 ++ repeat false 4) = Some (RDone (Some 11), 1%nat, 1%nat).
Proof. vm_compute. reflexivity. Qed.
(** the reader sees the new slot before its status is stored: nothing is found, though the addition has begun *)
Example C88_ex_missed : ex_race 4 (repeat true 4 ++ repeat false 7 ++ repeat true 6) = Some (RDone None, 1%nat, 1%nat).
Proof. vm_compute. reflexivity. Qed.
(** the addition takes place between the two reads of the status of the slot: the reader goes on to the next slot and finds nothing *)
Example C88_ex_between : ex_race 4 (repeat false 6 ++ repeat true 10 ++ repeat false 4) = Some (RDone None, 1%nat, 1%nat).
Proof. vm_compute. reflexivity. Qed.
(** the other key is found all the same *)
Example C88_ex_present : ex_race 0 (repeat true 3 ++ repeat false 3 ++ repeat true 7 ++ repeat false 2) = Some (RDone (Some 10), 1%nat, 1%nat).
Proof. vm_compute. reflexivity. Qed.
(** 4 lies behind 8, both at home in slot 0.  8 is replaced and 5 comes in; while that goes on, 4 is found behind the cleared slot. *)
Definition ex_mix : list (hop Z Z) := [HRemove 8; HAdd 8 12; HAdd 5 13].
Definition ex_m : htable Z Z := four_t [HAdd 8 10; HAdd 4 11].
Example C88_ex_mix : fits Z.eqb (ht_size ex_m) ex_mix [(4, 11); (8, 10)] /\ adds_absent Z.eqb [] ([HAdd 8 10; HAdd 4 11] ++ ex_mix) /\ away idz ex_mix 4 /\ lookup_hashtable ex_m 4 = Ok (Some 11) /\
  match race 4 (repeat false 3 ++ repeat true 5 ++ repeat false 8 ++ repeat true 30) (mkW ex_m [] ex_mix) RStart with
  | Ok (w, pc) => (pc, lookup_hashtable (w_table w) 8, lookup_hashtable (w_table w) 5) = (RDone (Some 11), Ok (Some 12), Ok (Some 13))
  | Fault _ => False
  end.
Proof.
  split; [intros [|[|[|[|i]]]] k d H; try discriminate H; vm_compute; discriminate|]. split; [vm_compute; repeat split|]. split; [intros r [H|[H|[H|[]]]]; injection H as <- || discriminate H; vm_compute; split; discriminate|]. split; [vm_compute; reflexivity|]. vm_compute. reflexivity.
Qed.
(** the key being removed: crash *)
Example C88_ex_removal : lookup_hashtable ex_m 8 = Ok (Some 10) /\ race 8 (repeat false 3 ++ [true; true; false]) (mkW ex_m [] [HRemove 8]) RStart = Fault NullDeref.
Proof. vm_compute. split; reflexivity. Qed.
(** another key is safe only if its hash value is not 0: a cleared entry has that value too *)
Example C88_ex_zero : race 0 (repeat false 2 ++ repeat true 4 ++ repeat false 2) (mkW ex_m [] [HRemove 8]) RStart = Fault NullDeref.
Proof. vm_compute. reflexivity. Qed.
(** three of four slots in use: the next addition makes the table grow *)
Example C88_ex_growth : let t := four_t [HAdd 0 10; HAdd 1 11; HAdd 2 12] in ht_size t / 2 < inuse_slots t /\
  race 0 [true; true; false] (mkW t [] [HAdd 3 13]) RStart = Fault DivByZero.
Proof. vm_compute. split; reflexivity. Qed.
(** f is wrapped; the name of another function is entered and replaced while f is looked up *)
Definition ex_fn : list (hop cstr nat) := [HAdd [103] 7%nat; HRemove [103]; HAdd [103] 8%nat].
Example C88_ex_functions : let t := climbing_fn in is_ok (demo_run climbing) = true /\ s_init (st_of (demo_run climbing)) = true /\
  lookup_hashtable t [103] = Ok None /\ (inuse_slots t + 1 <=? ht_size t / 2 + 1) = true /\ away strhash ex_fn f_name /\
  match lookup_hashtable t f_name, race f_name (concat (repeat [true; false] 60)) (mkW t [] ex_fn) RStart with
  | Ok (Some b), Ok (w, RDone (Some b')) => Nat.eqb b b' && Nat.eqb (finished ex_fn w) 3
  | _, _ => false
  end = true.
Proof.
  do 4 (split; [vm_compute; reflexivity|]). split; [intros r [H|[H|[H|[]]]]; [discriminate H|injection H as <-|discriminate H]; split; intros X; vm_compute in X; discriminate X|]. vm_compute. reflexivity.
Qed.
