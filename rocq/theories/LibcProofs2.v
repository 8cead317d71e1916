(** Proofs about strstr, getenv, atoi and the conversion of numbers. *)
From Verif Require Import Base ListFacts LibcModel SpecLibc LibcProofs.

(** *** strstr *)
Section Strstr.
Context (m : bytes) (hay needle : Z).
Fixpoint match_res (i : Z) (nd hs : cstr) : option (option Z) :=
  match nd, hs with
  | [], _ => Some (Some (needle + i))
  | _ :: _, [] => Some None
  | b :: nd', a :: hs' => if b =? a then match_res i nd' hs' else None
  end.
Lemma strstr_match_ok i : 0 <= i -> forall nd hs f j, str_at m (needle + j) nd -> str_at m (hay + (i + j)) hs -> (length nd < f)%nat -> 0 <= j -> i + j + zlen hs <= INT_MAX ->
  strstr_match f m hay needle i j = Ok (match_res i nd hs).
Proof.
  intros Hi. induction nd as [|b nd IH]; intros hs f j [W H] [V K] F J0 IM; (destruct f as [|f]; [cbn in F; lia|]); cbn in H; cbn [strstr_match]; rewrite (holds_ld _ _ _ (proj1 H)); cbn [bind].
  - reflexivity.
  - inversion W as [|? ? Hb W']; subst. destruct (Z.eqb_spec b 0); [lia|]. rewrite Z.gtb_ltb. destruct (Z.ltb_spec INT_MAX (i + j)); [lia|].
    destruct hs as [|a hs]; cbn in K; rewrite (holds_ld _ _ _ (proj1 K)); cbn [bind match_res]; [reflexivity|].
    inversion V as [|? ? Ha V']; subst. destruct (Z.eqb_spec a 0); [lia|]. destruct (Z.eqb_spec b a) as [->|N]; cbn [negb]; [|auto].
    cbn [length] in F, IM. rewrite incr_ok by lia. cbn [bind]. apply IH; try lia; (split; [assumption|]).
    + rewrite Z.add_assoc. tauto.
    + replace (hay + (i + (j + 1))) with (hay + (i + j) + 1) by lia. tauto.
Qed.
Context (n0 : Z) (nr : cstr) (HN : str_at m needle (n0 :: nr)).
Fixpoint find_res (i : Z) (h : cstr) : option Z :=
  match h with
  | [] => None
  | a :: h' => if a =? n0 then match match_res i nr h' with Some r => r | None => find_res (i + 1) h' end else find_res (i + 1) h'
  end.
Lemma strstr_loop_ok : forall h f i, str_at m (hay + i) h -> (length h < f)%nat -> 0 <= i -> i + zlen h <= INT_MAX ->
  strstr_loop f m hay needle i = Ok (find_res i h).
Proof.
  destruct HN as [WN KN]. cbn in KN. inversion WN as [|? ? Hn0 WN']; subst.
  induction h as [|a h IH]; intros f i [W H] F I0 IM; (destruct f as [|f]; [cbn in F; lia|]); cbn in H; cbn [strstr_loop]; rewrite (holds_ld _ _ _ (proj1 H)); cbn [bind].
  - reflexivity.
  - inversion W as [|? ? Ha W']; subst. destruct (Z.eqb_spec a 0); [lia|]. rewrite (holds_ld _ _ _ (proj1 KN)). cbn [bind find_res].
    cbn [length] in F, IM.
    assert (R : (do i' <- incr i; strstr_loop f m hay needle i') = Ok (find_res (i + 1) h)).
    { rewrite incr_ok by lia. cbn [bind]. apply IH; try lia. split; [auto|]. rewrite Z.add_assoc. tauto. }
    destruct (Z.eqb_spec a n0) as [->|N]; cbn [negb]; [|exact R].
    rewrite (strstr_match_ok i I0 nr h); try lia.
    + cbn [bind]. destruct (match_res i nr h); auto.
    + split; [auto|tauto].
    + split; [auto|]. rewrite Z.add_assoc. tauto.
    + apply str_at_len in HN. cbn [length] in HN. lia.
Qed.
End Strstr.
Lemma match_res_some q i : forall nd hs r, match_res q i nd hs = Some (Some r) -> r = q + i /\ exists suf, hs = nd ++ suf.
Proof.
  induction nd as [|b nd IH]; intros hs r; cbn.
  - intros [= <-]. split; [auto|]. exists hs. auto.
  - destruct hs as [|a hs]; [discriminate|]. destruct (Z.eqb_spec b a) as [->|N]; [|discriminate].
    intros E. destruct (IH _ _ E) as (-> & suf & ->). split; [auto|]. exists suf. auto.
Qed.
Lemma match_res_none q i : forall nd hs, match_res q i nd hs = None -> forall suf, hs <> nd ++ suf.
Proof.
  induction nd as [|b nd IH]; intros hs; cbn; [discriminate|].
  destruct hs as [|a hs]; [discriminate|]. destruct (Z.eqb_spec b a) as [->|N]; [|congruence].
  intros E suf [= K]. eapply IH; eauto.
Qed.
Lemma match_res_end q i : forall nd hs, match_res q i nd hs = Some None -> (length hs < length nd)%nat.
Proof.
  induction nd as [|b nd IH]; intros hs; cbn; [discriminate|].
  destruct hs as [|a hs]; [cbn; lia|]. destruct (Z.eqb_spec b a) as [->|N]; [|discriminate].
  intros E. apply IH in E. cbn. lia.
Qed.
Lemma occurs_at_0 nd h : occurs_at nd h 0 <-> exists suf, h = nd ++ suf.
Proof. unfold occurs_at. cbn. split; intros (suf & H); exists suf; [tauto|]. split; [auto|lia]. Qed.
Lemma occurs_at_S nd a h k : occurs_at nd (a :: h) (S k) <-> occurs_at nd h k.
Proof. unfold occurs_at. cbn. split; intros (suf & H & L); exists suf; split; auto; lia. Qed.
Lemma occurs_len nd h k : occurs_at nd h k -> (k + length nd <= length h)%nat.
Proof. intros (suf & H & L). apply (f_equal (@length Z)) in H. rewrite skipn_length, app_length in H. lia. Qed.
Lemma find_res_ok q n0 nr : forall h i,
  match find_res q n0 nr i h with
  | Some r => exists k, r = q + (i + Z.of_nat k) /\ first_occurrence (n0 :: nr) h k
  | None => forall k, ~ occurs_at (n0 :: nr) h k
  end.
Proof.
  induction h as [|a h IH]; intros i; cbn [find_res].
  - intros k O. apply occurs_len in O. cbn in O. lia.
  - assert (Skip : (forall suf, a :: h <> (n0 :: nr) ++ suf) ->
      match find_res q n0 nr (i + 1) h with
      | Some r => exists k, r = q + (i + Z.of_nat k) /\ first_occurrence (n0 :: nr) (a :: h) k
      | None => forall k, ~ occurs_at (n0 :: nr) (a :: h) k
      end).
    { intros NP. specialize (IH (i + 1)). destruct (find_res q n0 nr (i + 1) h) as [r|].
      - destruct IH as (k & -> & O & M). exists (S k). split; [lia|]. split; [now apply occurs_at_S|].
        intros [|j] Oj; [apply occurs_at_0 in Oj as (suf & E); elim (NP suf); auto|]. apply (proj1 (occurs_at_S _ _ _ _)) in Oj. apply M in Oj. lia.
      - intros [|k] O; [apply occurs_at_0 in O as (suf & E); elim (NP suf); auto|]. apply (proj1 (occurs_at_S _ _ _ _)) in O. apply (IH k O). }
    destruct (Z.eqb_spec a n0) as [->|N]; [|apply Skip; cbn; congruence].
    destruct (match_res q i nr h) as [[r|]|] eqn:E.
    + apply match_res_some in E as (-> & suf & ->). exists 0%nat. split; [lia|]. split; [|lia].
      apply occurs_at_0. exists suf. auto.
    + apply match_res_end in E. intros k O. apply occurs_len in O. cbn in O. lia.
    + apply Skip. cbn. intros suf [= K]. eapply match_res_none; eauto.
Qed.
Lemma strstr_ok m hay needle h nd : str_at m hay h -> str_at m needle nd -> nd <> [] -> short h ->
  (exists k, gotcha_strstr m hay needle = Ok (Some (needle + Z.of_nat k)) /\ first_occurrence nd h k) \/
  (gotcha_strstr m hay needle = Ok None /\ forall k, ~ occurs_at nd h k).
Proof.
  intros H K N L. destruct nd as [|n0 nr]; [congruence|]. unfold gotcha_strstr.
  assert (W := proj1 K). inversion W; subst. rewrite (holds_ld _ _ _ (proj1 (proj2 K))). cbn [bind]. destruct (Z.eqb_spec n0 0); [lia|].
  rewrite (strstr_loop_ok m hay needle n0 nr K h); rewrite ?Z.add_0_r; auto; try lia.
  2: { apply str_at_len in H. lia. }
  pose proof (find_res_ok needle n0 nr h 0) as F. destruct (find_res needle n0 nr 0 h) as [r|].
  - left. destruct F as (k & -> & F). exists k. auto.
  - right. auto.
Qed.

(** *** getenv *)
Lemma s32_id z : 0 <= z <= INT_MAX -> s32 z = z.
Proof. unfold INT_MAX, s32, two32. intros. rewrite Z.mod_small by lia. destruct (Z.ltb_spec z 2147483648); lia. Qed.
Lemma firstn_prefix (name e : cstr) : name = firstn (length name) e <-> exists r, e = name ++ r.
Proof.
  split.
  - intros E. exists (skipn (length name) e). rewrite E at 1. symmetry. apply firstn_skipn.
  - intros (r & ->). rewrite firstn_app, firstn_all, Nat.sub_diag. cbn. now rewrite app_nil_r.
Qed.
Lemma getenv_loop_ok m p name : str_at m p name -> short name -> forall envp env, env_at m envp env ->
  (exists b1 s b2 e1 value e2, envp = b1 ++ s :: b2 /\ env = e1 ++ (name ++ 61 :: value) :: e2 /\ length b1 = length e1 /\
     (forall e v, In e e1 -> ~ sets name v e) /\ getenv_loop m envp p (zlen name) = Ok (Some (s + zlen name + 1)) /\ str_at m (s + zlen name + 1) value) \/
  ((forall e v, In e env -> ~ sets name v e) /\ getenv_loop m envp p (zlen name) = Ok None).
Proof.
  intros Hp Ls envp env E. unfold short in Ls. induction E as [|s e envp env He E IH]; [right; split; [intros ? ? []|reflexivity]|].
  cbn [getenv_loop].
  assert (C : gotcha_strncmp m p s (zlen name) = Ok (cmp_val name (firstn (length name) e))).
  { apply strncmp_ok; [lia| |].
    - pose proof (str_nstr m p (zlen name) name) as A. rewrite Nat2Z.id, firstn_all in A. apply A; [lia|auto].
    - pose proof (str_nstr m s (zlen name) e) as A. rewrite Nat2Z.id in A. apply A; [lia|auto]. }
  rewrite C. cbn [bind].
  assert (WF : wf_cstr (firstn (length name) e)).
  { apply Forall_forall. intros b Hb. assert (W := proj1 He). eapply Forall_forall in W; [apply W|]. rewrite <- (firstn_skipn (length name) e). apply in_or_app. auto. }
  assert (Next : (forall v, ~ sets name v e) ->
    (exists b1 s0 b2 e1 value e2, s :: envp = b1 ++ s0 :: b2 /\ e :: env = e1 ++ (name ++ 61 :: value) :: e2 /\ length b1 = length e1 /\
     (forall e v, In e e1 -> ~ sets name v e) /\ getenv_loop m envp p (zlen name) = Ok (Some (s0 + zlen name + 1)) /\ str_at m (s0 + zlen name + 1) value) \/
    ((forall e0 v, In e0 (e :: env) -> ~ sets name v e0) /\ getenv_loop m envp p (zlen name) = Ok None)).
  { intros NS. destruct IH as [(b1 & s0 & b2 & e1 & value & e2 & -> & -> & L & NB & R & V)|(NB & R)].
    - left. exists (s :: b1), s0, b2, (e :: e1), value, e2. cbn. repeat split; auto; try apply V. intros e0 v [->|J]; eauto.
    - right. split; [|auto]. intros e0 v [->|J]; eauto. }
  destruct (Z.eqb_spec (cmp_val name (firstn (length name) e)) 0) as [Z0|NZ]; cbn [negb].
  - apply cmp_val_0 in Z0; [|apply Hp|auto]. apply firstn_prefix in Z0 as (r & ->).
    destruct He as [We He]. rewrite <- app_assoc in He. apply bytes_at_app in He as [_ He]. apply wf_app in We as [_ We].
    destruct r as [|c r]; cbn in He; rewrite (holds_ld _ _ _ (proj1 He)); cbn [bind].
    + cbn. apply Next. intros v H. unfold sets in H. rewrite app_nil_r in H. apply (f_equal (@length Z)) in H. rewrite app_length in H. cbn in H. lia.
    + destruct (Z.eqb_spec c 61) as [->|Nc]; cbn [negb].
      * left. exists [], s, envp, [], r, env. cbn. repeat split; auto. { inversion We; auto. } apply He.
      * apply Next. intros v H. unfold sets in H. apply app_inv_head in H. congruence.
  - apply Next. intros v H. apply NZ. apply cmp_val_0; [apply Hp|auto|]. apply firstn_prefix. exists (61 :: v). exact H.
Qed.

(** *** positional notation *)
Lemma fold_number base : forall ds v, fold_left (fun v d => v * base + d) ds v = v * base ^ zlen ds + number base ds.
Proof.
  unfold number. induction ds as [|d ds IH]; intros v; cbn [fold_left length].
  - cbn. lia.
  - rewrite IH. rewrite (IH (0 * base + d)). rewrite Nat2Z.inj_succ, Z.pow_succ_r by lia. ring.
Qed.
Lemma number_snoc base ds d : number base (ds ++ [d]) = number base ds * base + d.
Proof. unfold number. rewrite fold_left_app. reflexivity. Qed.
Lemma number_cons base d ds : number base (d :: ds) = d * base ^ zlen ds + number base ds.
Proof. unfold number at 1. cbn [fold_left]. rewrite fold_number. ring. Qed.
Lemma number_bound base ds : 2 <= base -> Forall (fun d => 0 <= d < base) ds -> 0 <= number base ds < base ^ zlen ds.
Proof.
  intros B H. induction H as [|d ds Hd H IH]; [cbn; lia|].
  rewrite number_cons. cbn [length]. rewrite Nat2Z.inj_succ, Z.pow_succ_r by lia. nia.
Qed.
Lemma canonical_pos base num ds : 2 <= base -> canonical base num ds -> 0 < num -> exists d r, ds = d :: r /\ d <> 0.
Proof. intros B (F & N & [->|X]) P; [cbn in N; lia|auto]. Qed.
Lemma canonical_low base num ds : 2 <= base -> canonical base num ds -> 0 < num -> base ^ (zlen ds - 1) <= num.
Proof.
  intros B C P. destruct (canonical_pos _ _ _ B C P) as (d & r & -> & Nd). destruct C as (F & <- & _).
  inversion F as [|? ? Hd Fr]; subst. rewrite number_cons. pose proof (number_bound base r B Fr). cbn [length].
  replace (Z.of_nat (S (length r)) - 1) with (zlen r) by lia. nia.
Qed.
Lemma canonical_exists base : 2 <= base -> forall k : nat, forall num, 0 < num < base ^ Z.of_nat k -> exists ds, canonical base num ds.
Proof.
  intros B. induction k as [|k IH]; intros num P; [cbn in P; lia|].
  rewrite Nat2Z.inj_succ, Z.pow_succ_r in P by lia.
  destruct (Z_lt_le_dec num base) as [L|L].
  - exists [num]. split; [constructor; [lia|constructor]|]. split; [unfold number; cbn; lia|]. right. exists num, []. split; [auto|lia].
  - destruct (IH (num / base)) as (ds & F & N & Hd).
    { split; [apply Z.div_str_pos; lia|]. apply Z.div_lt_upper_bound; lia. }
    exists (ds ++ [num mod base]). split; [|split].
    + apply Forall_app. split; [auto|]. constructor; [|constructor]. apply Z.mod_pos_bound. lia.
    + rewrite number_snoc, N. pose proof (Z.div_mod num base ltac:(lia)). lia.
    + right. destruct Hd as [->|(d & r & -> & Nd)].
      * cbn in N. pose proof (Z.div_str_pos num base ltac:(lia)). lia.
      * exists d, (r ++ [num mod base]). auto.
Qed.
Lemma canonical_split base num ds d : 2 <= base -> canonical base num (ds ++ [d]) -> num mod base = d /\ num / base = number base ds.
Proof.
  intros B (F & N & _). apply Forall_app in F as [_ F]. inversion F; subst. rewrite number_snoc.
  split; [rewrite Z.add_comm, Z_mod_plus by lia; apply Z.mod_small; lia|].
  rewrite Z.div_add_l by lia. rewrite Z.div_small by lia. lia.
Qed.
Lemma number_inj base : 2 <= base -> forall l1 l2, Forall (fun d => 0 <= d < base) l1 -> Forall (fun d => 0 <= d < base) l2 ->
  length l1 = length l2 -> number base l1 = number base l2 -> l1 = l2.
Proof.
  intros B. induction l1 as [|a l1 IH]; intros [|b l2] F1 F2 L E; cbn in L; try lia; auto.
  inversion F1 as [|? ? Ha F1']; inversion F2 as [|? ? Hb F2']; subst. rewrite !number_cons in E. injection L as L. rewrite <- L in E.
  pose proof (number_bound base l1 B F1'). pose proof (number_bound base l2 B F2'). rewrite <- L in *.
  assert (a = b) by nia. subst. f_equal. apply IH; auto. lia.
Qed.
Lemma canonical_unique base num l1 l2 : 2 <= base -> canonical base num l1 -> canonical base num l2 -> l1 = l2.
Proof.
  intros B C1 C2.
  assert (L : length l1 = length l2).
  { assert (P : forall l, canonical base num l -> num = 0 -> l = [0]).
    { intros l (F & N & [->|(d & r & -> & Nd)]) Z0; auto. inversion F as [|? ? Hd F']; subst. rewrite number_cons in Z0.
      pose proof (number_bound base r B F'). nia. }
    destruct (Z.eq_dec num 0) as [Z0|N0]; [rewrite (P _ C1 Z0), (P _ C2 Z0); auto|].
    pose proof (number_bound base l1 B (proj1 C1)). pose proof (number_bound base l2 B (proj1 C2)).
    assert (E1 := proj1 (proj2 C1)). assert (E2 := proj1 (proj2 C2)).
    pose proof (canonical_low base num l1 B C1 ltac:(lia)). pose proof (canonical_low base num l2 B C2 ltac:(lia)).
    assert (zlen l1 - 1 < zlen l2) by (apply (Z.pow_lt_mono_r_iff base); lia).
    assert (zlen l2 - 1 < zlen l1) by (apply (Z.pow_lt_mono_r_iff base); lia). lia. }
  apply (number_inj base); auto; [apply C1|apply C2|]. destruct C1 as (_ & -> & _), C2 as (_ & -> & _). auto.
Qed.

(** *** printing numbers *)
Lemma rev_cases {A} (l : list A) : l = [] \/ exists r x, l = r ++ [x].
Proof. induction l as [|x r IH] using rev_ind; eauto. Qed.
Lemma canonical_front base num ds d e : 2 <= base -> canonical base num (ds ++ [e; d]) -> canonical base (num / base) (ds ++ [e]).
Proof.
  intros B C. assert (C' := C). replace (ds ++ [e; d]) with ((ds ++ [e]) ++ [d]) in C by (rewrite <- app_assoc; auto).
  apply canonical_split in C as [_ E]; [|auto]. destruct C' as (F & N & Hd). split; [|split; [auto|]].
  - replace (ds ++ [e; d]) with ((ds ++ [e]) ++ [d]) in F by (rewrite <- app_assoc; auto). apply Forall_app in F. tauto.
  - right. destruct Hd as [Hd|(x & r & Hd & Nx)].
    + apply (f_equal (@length Z)) in Hd. rewrite app_length in Hd. cbn in Hd. lia.
    + destruct ds as [|y ds]; cbn in Hd; injection Hd as -> Hr; [exists x, []|exists x, (ds ++ [e])]; auto.
Qed.
Lemma count_loop_ok base : 2 <= base -> forall ds num f len, canonical base num ds -> 0 < num -> (length ds < f)%nat -> 0 <= len -> len + zlen ds <= INT_MAX ->
  count_loop f base num len = Ok (len + zlen ds).
Proof.
  intros B. induction ds as [|d ds IH] using rev_ind; intros num f len C P F L0 LM.
  - destruct (canonical_pos _ _ _ B C P) as (? & ? & ? & ?). discriminate.
  - rewrite app_length in F, LM |- *. cbn [length] in F, LM |- *. destruct f as [|f]; [lia|]. cbn [count_loop].
    destruct (Z.eqb_spec num 0); [lia|]. rewrite incr_ok by lia. cbn [bind].
    assert (S1 := canonical_split _ _ _ _ B C). destruct S1 as [_ E].
    destruct (rev_cases ds) as [->|(r & e & ->)].
    + replace (num / base) with 0 by (rewrite E; reflexivity). destruct f as [|f]; [cbn in F; lia|]. reflexivity.
    + rewrite <- app_assoc in C. assert (C1 := canonical_front _ _ _ _ _ B C).
      rewrite IH; auto; try lia; [f_equal; lia|].
      assert (C2 := canonical_pos base num (r ++ [e; d]) B C P). destruct C2 as (x & y & Hx & Nx).
      assert (base <= num); [|apply Z.div_str_pos; lia].
      pose proof (canonical_low _ _ _ B C P) as Low. rewrite app_length in Low. cbn [length] in Low.
      assert (base ^ 1 <= base ^ (Z.of_nat (length r + 2) - 1)) by (apply Z.pow_le_mono_r; lia). rewrite Z.pow_1_r in *. eapply Z.le_trans; eassumption.
Qed.
Lemma digits_loop_ok base digit : 2 <= base -> (forall d, 0 <= d < base -> 1 <= digit d <= 255) -> forall ds num m str,
  Forall (fun d => 0 <= d < base) ds -> num = number base ds -> accessible m str (zlen ds) ->
  exists m', digits_loop (length ds) base digit m str num = Ok m' /\ bytes_at m' str (map digit ds) /\ same_but m m' str (zlen ds).
Proof.
  intros B HD. induction ds as [|d ds IH] using rev_ind; intros num m str F N A.
  - exists m. split; [auto|]. split; [exact I|apply same_but_refl].
  - assert (F' := F). apply Forall_app in F as [F Fd]. inversion Fd as [|? ? Hd _]; subst.
    rewrite app_length in *. cbn [length] in *. rewrite Nat.add_1_r. cbn [digits_loop].
    rewrite number_snoc. rewrite (Z.add_comm _ d), Z_mod_plus, Z.mod_small by lia. rewrite Z.div_add by lia. rewrite Z.div_small by lia.
    destruct (A (str + zlen ds)) as (x & Hx); [lia|]. destruct (st_ok m _ x (digit d) Hx) as (m1 & -> & H1 & S1). cbn [bind].
    destruct (IH (0 + number base ds) m1 str) as (m2 & E2 & B2 & S2); auto.
    { intros a Ha. destruct (A a) as (b & Hb); [lia|]. exists b. eapply same_but_holds; [eauto|lia|auto]. }
    exists m2. split; [exact E2|]. split.
    + rewrite map_app. apply bytes_at_app. split; [auto|]. rewrite map_length. cbn. split; [|auto].
      specialize (HD d Hd). rewrite Z.mod_small in H1 by lia. eapply same_but_holds; [eauto|lia|auto].
    + eapply same_but_trans; eapply same_but_wider; eauto; lia.
Qed.
Lemma canonical_0 base ds : 2 <= base -> canonical base 0 ds -> ds = [0].
Proof.
  intros B C. apply (canonical_unique base 0); auto. split; [constructor; [lia|constructor]|]. split; [reflexivity|auto].
Qed.
Lemma canonical_len base num ds : 2 <= base -> canonical base num ds -> 0 <= num < two64 -> (length ds <= 64)%nat.
Proof.
  intros B C P. destruct (Z.eq_dec num 0) as [->|N0]; [rewrite (canonical_0 _ _ B C); cbn; lia|].
  pose proof (canonical_low _ _ _ B C ltac:(lia)).
  assert (2 ^ (zlen ds - 1) <= base ^ (zlen ds - 1)) by (apply Z.pow_le_mono_l; lia).
  destruct (le_lt_dec (length ds) 64) as [L|L]; [auto|].
  assert (2 ^ 64 <= 2 ^ (zlen ds - 1)) by (apply Z.pow_le_mono_r; lia). unfold two64 in P. lia.
Qed.
(** [fits]: the code wants one byte more than needed, except for 0 *)
Definition fits (num strlen : Z) (ds : list Z) : Prop := if num =? 0 then 2 <= strlen else zlen ds + 1 < strlen.
Lemma ulong_to_ok base digit m num str strlen ds : 2 <= base -> (forall d, 0 <= d < base -> 1 <= digit d <= 255) -> digit 0 = 48 ->
  0 <= num < two64 -> canonical base num ds -> accessible m str strlen ->
  (fits num strlen ds -> exists m', ulong_to base digit m num str strlen = Ok (m', zlen ds) /\ str_at m' str (map digit ds) /\ same_but m m' str (zlen ds + 1)) /\
  (~ fits num strlen ds -> ulong_to base digit m num str strlen = Ok (m, -1)).
Proof.
  intros B HD D0 P C A. unfold ulong_to, fits.
  assert (WD : wf_cstr (map digit ds)).
  { apply Forall_forall. intros b Hb. apply in_map_iff in Hb as (d & <- & Hd). apply HD. destruct C as [C _]. eapply Forall_forall in C; eauto. }
  destruct (Z.eqb_spec num 0) as [->|N0].
  - rewrite (canonical_0 _ _ B C) in *. destruct (Z.ltb_spec strlen 2) as [L|L]; (split; [intros F|intros F]); try lia; auto.
    destruct (A str) as (x & Hx); [lia|]. destruct (st_ok m _ x 48 Hx) as (m1 & -> & H1 & S1). cbn [bind].
    destruct (A (str + 1)) as (y & Hy); [lia|]. apply (same_but_holds _ _ _ _ _ _ S1) in Hy; [|lia].
    destruct (st_ok m1 _ y 0 Hy) as (m2 & -> & H2 & S2). cbn [bind]. exists m2. split; [auto|]. split.
    + split; [auto|]. cbn. rewrite D0. split; [|split; [|auto]]; [|exact H2].
      eapply same_but_holds; [exact S2|lia|exact H1].
    + eapply same_but_trans; eapply same_but_wider; eauto; cbn; lia.
  - pose proof (canonical_len _ _ _ B C P) as L64. rewrite (count_loop_ok base B ds); auto; try lia.
    2: { unfold INT_MAX. lia. }
    cbn [bind]. rewrite Z.add_0_l. rewrite Z.geb_leb. destruct (Z.leb_spec strlen (zlen ds + 1)) as [L|L]; (split; [intros F|intros F]); try lia; auto.
    destruct (A (str + zlen ds)) as (x & Hx); [lia|]. destruct (st_ok m _ x 0 Hx) as (m1 & -> & H1 & S1). cbn [bind].
    rewrite Nat2Z.id. destruct (digits_loop_ok base digit B HD ds num m1 str) as (m2 & -> & B2 & S2).
    { apply C. } { symmetry. apply C. }
    { intros a Ha. destruct (A a) as (b & Hb); [lia|]. exists b. eapply same_but_holds; [eauto|lia|auto]. }
    cbn [bind]. exists m2. split; [auto|]. split.
    + split; [auto|]. apply bytes_at_app. split; [auto|]. rewrite map_length. cbn. split; [|auto].
      eapply same_but_holds; [exact S2|lia|exact H1].
    + eapply same_but_trans; eapply same_but_wider; eauto; lia.
Qed.

(** *** atoi *)
Lemma atoi_signs_ok m : forall k p neg s f, str_at m p (repeat 45 k ++ s) -> (forall c r, s = c :: r -> c <> 45) -> (k < f)%nat ->
  atoi_signs f m p neg = Ok (p + Z.of_nat k, neg * (-1) ^ Z.of_nat k).
Proof.
  induction k as [|k IH]; intros p neg s f [W H] N F; (destruct f as [|f]; [lia|]); cbn [atoi_signs].
  - cbn [repeat app] in *. rewrite Z.add_0_r, Z.mul_1_r.
    destruct s as [|c s]; cbn in H; rewrite (holds_ld _ _ _ (proj1 H)); cbn [bind]; [reflexivity|].
    destruct (Z.eqb_spec c 45); [|auto]. elim (N c s); auto.
  - cbn [repeat app bytes_at] in H. rewrite (holds_ld _ _ _ (proj1 H)). cbn [bind Z.eqb Pos.eqb].
    rewrite (IH _ _ s); auto; [|split; [inversion W; auto|tauto]|lia].
    f_equal. f_equal; [lia|]. rewrite (Nat2Z.inj_succ k), Z.pow_succ_r by lia. ring.
Qed.
Lemma atoi_len_ok m p : forall ds rest len f, Forall (fun d => 0 <= d < 10) ds -> (forall c r, rest = c :: r -> ~ 48 <= c <= 57) ->
  bytes_at m (p + len) (map dec_char ds ++ rest ++ [0]) -> (length ds < f)%nat -> 0 <= len <= INT_MAX ->
  atoi_len f m p len = (if len + zlen ds <=? INT_MAX then Ok (len + zlen ds) else Fault SignedOverflow).
Proof.
  induction ds as [|d ds IH]; intros rest len f F N H L L0; (destruct f as [|f]; [cbn in L; lia|]); cbn [atoi_len].
  - cbn [map app length] in *. rewrite Z.add_0_r. destruct (Z.leb_spec len INT_MAX); [|lia].
    destruct rest as [|c r]; cbn in H; rewrite (holds_ld _ _ _ (proj1 H)); cbn [bind]; [reflexivity|].
    specialize (N c r eq_refl). destruct (Z.leb_spec 48 c), (Z.leb_spec c 57); cbn [andb]; auto; lia.
  - cbn [map app bytes_at length] in *. rewrite (holds_ld _ _ _ (proj1 H)). cbn [bind]. inversion F as [|? ? Hd F']; subst. unfold dec_char at 1 2.
    destruct (Z.leb_spec 48 (48 + d)), (Z.leb_spec (48 + d) 57); try lia. cbn [andb].
    unfold incr. destruct (Z.ltb_spec len INT_MAX); cbn [bind].
    + rewrite (IH rest); auto; try lia.
      * replace (len + 1 + zlen ds) with (len + Z.of_nat (S (length ds))) by lia. reflexivity.
      * replace (p + (len + 1)) with (p + len + 1) by lia. tauto.
    + destruct (Z.leb_spec (len + Z.of_nat (S (length ds))) INT_MAX); [lia|auto].
Qed.
Lemma int_op_ok z : INT_MIN <= z <= INT_MAX -> int_op z = Ok z.
Proof. intros H. unfold int_op, in_int. destruct (Z.leb_spec INT_MIN z), (Z.leb_spec z INT_MAX); auto; lia. Qed.
Lemma int_op_cases z : (int_op z = Ok z /\ INT_MIN <= z <= INT_MAX) \/ int_op z = Fault SignedOverflow.
Proof. unfold int_op, in_int. destruct (Z.leb_spec INT_MIN z), (Z.leb_spec z INT_MAX); auto. Qed.
Lemma atoi_loop_ok m p : forall ds val j, Forall (fun d => 0 <= d < 10) ds -> bytes_at m p (map dec_char ds) ->
  0 <= j -> j + zlen ds <= 9 -> 0 <= val < 10 ^ j ->
  atoi_loop (length ds) m p val (10 ^ j) = Ok (val + 10 ^ j * number 10 ds).
Proof.
  induction ds as [|d ds IH] using rev_ind; intros val j F H J0 JM V.
  - cbn. f_equal. lia.
  - apply Forall_app in F as [F Fd]. inversion Fd as [|? ? Hd _]; subst. rewrite map_app in H. apply bytes_at_app in H as [H Hl]. rewrite map_length in Hl. cbn [map bytes_at] in Hl.
    rewrite app_length in *. cbn [length] in *. rewrite Nat.add_1_r. cbn [atoi_loop]. rewrite (holds_ld _ _ _ (proj1 Hl)). cbn [bind].
    unfold dec_char. replace (48 + d - 48) with d by lia.
    assert (P10 : 10 ^ (j + 1) = 10 * 10 ^ j) by (rewrite Z.pow_add_r by lia; lia).
    assert (10 ^ (j + 1) <= 10 ^ 9) by (apply Z.pow_le_mono_r; lia). change (10 ^ 9) with 1000000000 in *.
    set (T := 10 ^ j) in *. assert (0 <= T * d <= 9 * T) by nia.
    rewrite (int_op_ok (T * d)) by (unfold INT_MIN, INT_MAX; lia). cbn [bind].
    rewrite (int_op_ok (val + T * d)) by (unfold INT_MIN, INT_MAX; lia). cbn [bind].
    rewrite (int_op_ok (T * 10)) by (unfold INT_MIN, INT_MAX; lia). cbn [bind].
    replace (T * 10) with (10 ^ (j + 1)) by lia. rewrite IH; auto; try lia.
    rewrite number_snoc. f_equal. rewrite P10. ring.
Qed.
Lemma atoi_loop_over m p : forall ds val j, Forall (fun d => 0 <= d < 10) ds -> bytes_at m p (map dec_char ds) ->
  0 <= j <= 9 -> 10 <= j + zlen ds -> atoi_loop (length ds) m p val (10 ^ j) = Fault SignedOverflow.
Proof.
  induction ds as [|d ds IH] using rev_ind; intros val j F H J0 JM.
  - cbn in JM. lia.
  - apply Forall_app in F as [F Fd]. inversion Fd as [|? ? Hd _]; subst. rewrite map_app in H. apply bytes_at_app in H as [H Hl]. rewrite map_length in Hl. cbn [map bytes_at] in Hl.
    rewrite app_length in *. cbn [length] in *. rewrite Nat.add_1_r. cbn [atoi_loop]. rewrite (holds_ld _ _ _ (proj1 Hl)). cbn [bind].
    destruct (int_op_cases (10 ^ j * (dec_char d - 48))) as [[-> _]| ->]; [|auto]. cbn [bind].
    destruct (int_op_cases (val + 10 ^ j * (dec_char d - 48))) as [[-> _]| ->]; [|auto]. cbn [bind].
    assert (P10 : 10 ^ (j + 1) = 10 * 10 ^ j) by (rewrite Z.pow_add_r by lia; lia).
    destruct (int_op_cases (10 ^ j * 10)) as [[-> R]| ->]; [|auto]. cbn [bind].
    replace (10 ^ j * 10) with (10 ^ (j + 1)) in * by lia. apply IH; auto; [|lia].
    split; [lia|]. destruct (Z_le_gt_dec (j + 1) 9); [auto|]. assert (10 ^ 10 <= 10 ^ (j + 1)) by (apply Z.pow_le_mono_r; lia).
    change (10 ^ 10) with 10000000000 in *. unfold INT_MAX in R. lia.
Qed.
Lemma atoi_ok m p s k ds rest : str_at m p s -> int_form s k ds rest ->
  gotcha_atoi m p = (if zlen ds <=? 9 then Ok ((-1) ^ Z.of_nat k * number 10 ds) else Fault SignedOverflow).
Proof.
  intros H (-> & F & N). unfold gotcha_atoi. assert (LS := str_at_len _ _ _ H). rewrite !app_length, repeat_length, map_length in LS.
  rewrite (atoi_signs_ok m k p 1 (map dec_char ds ++ rest)); auto; try lia.
  2: { intros c r E. destruct ds as [|d ds]; cbn [map app] in E.
       - eapply N; eauto.
       - inversion F; subst. injection E as Ec _. unfold dec_char in Ec. lia. }
  cbn [bind]. destruct H as [W H]. rewrite <- !app_assoc in H. apply bytes_at_app in H as [_ H]. rewrite repeat_length in H.
  rewrite (atoi_len_ok m _ ds rest); auto; try (unfold INT_MAX; lia).
  2: { intros c r E. eapply N; eauto. } 2: { rewrite Z.add_0_r. auto. }
  apply bytes_at_app in H as [H _]. rewrite Z.add_0_l.
  destruct (Z.leb_spec (zlen ds) INT_MAX) as [LI|LI]; cbn [bind].
  - rewrite Nat2Z.id. change 1 with (10 ^ 0) at 1. destruct (Z.leb_spec (zlen ds) 9) as [L9|L9].
    + rewrite (atoi_loop_ok m _ ds 0 0); auto; try lia. cbn [bind]. rewrite Z.pow_0_r, Z.add_0_l, !Z.mul_1_l.
      pose proof (number_bound 10 ds ltac:(lia) F). assert (10 ^ zlen ds <= 10 ^ 9) by (apply Z.pow_le_mono_r; lia). change (10 ^ 9) with 1000000000 in *.
      assert (M : (-1) ^ Z.of_nat k = 1 \/ (-1) ^ Z.of_nat k = -1).
      { clear. induction k as [|k IH]; [auto|]. rewrite Nat2Z.inj_succ, Z.pow_succ_r by lia. lia. }
      rewrite (Z.mul_comm (number 10 ds)). apply int_op_ok. unfold INT_MIN, INT_MAX. destruct M as [-> | ->]; lia.
    + rewrite atoi_loop_over; auto; lia.
  - destruct (Z.leb_spec (zlen ds) 9) as [L9|L9]; [unfold INT_MAX in LI; lia|auto].
Qed.
Lemma digits_total (s : cstr) : exists ds rest, s = map dec_char ds ++ rest /\ Forall (fun d => 0 <= d < 10) ds /\ forall c r, rest = c :: r -> ~ 48 <= c <= 57.
Proof.
  induction s as [|c s (ds & rest & -> & F & N)].
  - exists [], []. cbn. repeat split; auto; discriminate.
  - destruct (Z_le_gt_dec 48 c) as [L|L]; [destruct (Z_le_gt_dec c 57) as [M|M]|].
    + exists ((c - 48) :: ds), rest. cbn [map app]. replace (dec_char (c - 48)) with c by (unfold dec_char; lia). repeat split; auto. constructor; [lia|auto].
    + exists [], (c :: map dec_char ds ++ rest). repeat split; auto. intros x r [= <- _]. lia.
    + exists [], (c :: map dec_char ds ++ rest). repeat split; auto. intros x r [= <- _]. lia.
Qed.
Lemma int_form_total (s : cstr) : exists k ds rest, int_form s k ds rest.
Proof.
  induction s as [|c s (k & ds & rest & -> & F & N)].
  - exists 0%nat, [], []. split; [auto|]. split; [constructor|discriminate].
  - destruct (Z.eq_dec c 45) as [->|Nc].
    + exists (S k), ds, rest. split; [auto|]. auto.
    + destruct (digits_total (c :: repeat 45 k ++ map dec_char ds ++ rest)) as (ds' & rest' & E & F' & N').
      exists 0%nat, ds', rest'. split; [exact E|]. split; [auto|]. intros x r Er. split; [eapply N'; eauto|].
      intros ->. cbn in E. congruence.
Qed.
