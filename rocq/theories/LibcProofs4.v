From Verif Require Import Base ListFacts LibcModel SpecLibc LibcProofs LibcProofs2 LibcProofs3.

(** *** every format is covered by [writes] *)
Lemma decimal_exists v : - two64 < v < two64 -> exists s, decimal v s.
Proof.
  intros R. destruct (Z.eq_dec (Z.abs v) 0) as [E|N].
  - exists ((if v <? 0 then [45] else []) ++ map dec_char [0]). exists [0]. split; [|reflexivity]. rewrite E. split; [constructor; [lia|constructor]|]. split; [reflexivity|auto].
  - destruct (canonical_exists 10 ltac:(lia) 64 (Z.abs v)) as (ds & C).
    { assert (2 ^ Z.of_nat 64 <= 10 ^ Z.of_nat 64) by (apply Z.pow_le_mono_l; lia). change (2 ^ Z.of_nat 64) with two64 in *. lia. }
    exists ((if v <? 0 then [45] else []) ++ map dec_char ds), ds. auto.
Qed.
Lemma hexadecimal_exists u v : 0 <= v < two64 -> exists s, hexadecimal u v s.
Proof.
  intros R. destruct (Z.eq_dec v 0) as [->|N].
  - exists (map (hex_char u) [0]), [0]. split; [|reflexivity]. split; [constructor; [lia|constructor]|]. split; [reflexivity|auto].
  - destruct (canonical_exists 16 ltac:(lia) 64 v) as (ds & C).
    { assert (2 ^ Z.of_nat 64 <= 16 ^ Z.of_nat 64) by (apply Z.pow_le_mono_l; lia). change (2 ^ Z.of_nat 64) with two64 in *. lia. }
    exists (map (hex_char u) ds), ds. auto.
Qed.
Lemma width_bits_pos w : 8 <= width_bits w <= 64.
Proof. destruct w; cbn; lia. Qed.
Lemma unsigned_exists w a : exists v, denotes_unsigned w a v.
Proof.
  pose proof (width_bits_pos w). assert (P : 0 < 2 ^ width_bits w) by (apply Z.pow_pos_nonneg; lia).
  exists (a mod 2 ^ width_bits w). split; [apply Z.mod_pos_bound; auto|].
  exists (a / 2 ^ width_bits w). pose proof (Z.div_mod a (2 ^ width_bits w)). lia.
Qed.
Lemma signed_exists w a : exists v, denotes_signed w a v.
Proof.
  pose proof (width_bits_pos w). destruct (unsigned_exists w a) as (v & R & k & ->).
  assert (E : 2 ^ width_bits w = 2 * 2 ^ (width_bits w - 1)) by (rewrite <- (Z.pow_succ_r 2) by lia; f_equal; lia).
  destruct (Z.ltb_spec v (2 ^ (width_bits w - 1))) as [L|L].
  - exists v. split; [lia|]. exists k. auto.
  - exists (v - 2 ^ width_bits w). split; [lia|]. exists (k + 1). lia.
Qed.
Lemma directive_total m w c a args : (exists s, str_at m a s) -> a mod 2 ^ 64 <> 2 ^ 63 -> exists args' s, directive m w c (a :: args) args' s /\ incl args' (a :: args) /\ (length args <= length args')%nat.
Proof.
  intros (st0 & Hs) NM.
  assert (I : incl args (a :: args) /\ (length args <= length args)%nat) by (split; [right; auto|lia]).
  assert (J : incl (a :: args) (a :: args) /\ (length args <= length (a :: args))%nat) by (split; [apply incl_refl|cbn; lia]).
  assert (DS : c = 100 \/ c = 105 -> exists args' s, directive m w c (a :: args) args' s /\ incl args' (a :: args) /\ (length args <= length args')%nat).
  { intros Hc. destruct (signed_exists w a) as (v & D). pose proof (signed_range _ _ _ D) as R. destruct (decimal_exists v) as (s & Ds); [unfold two64; lia|].
    exists args, s. split; [|exact I]. apply (DSigned m w c a v s); auto. intros Ev. apply NM.
    destruct D as (R1 & k & Ek). rewrite Ek, Ev in *.
    assert (W : width_bits w = 64).
    { destruct w; auto; change (width_bits WNone) with 32 in *; change (width_bits WChar) with 8 in *; change (width_bits WShort) with 16 in *;
        exfalso; clear - R1; vm_compute in R1; destruct R1 as [R1 _]; apply R1; reflexivity. }
    rewrite W. rewrite Z_mod_plus_full. reflexivity. }
  assert (DX : c = 120 \/ c = 88 -> exists args' s, directive m w c (a :: args) args' s /\ incl args' (a :: args) /\ (length args <= length args')%nat).
  { intros Hc. destruct (unsigned_exists w a) as (v & D). destruct (hexadecimal_exists (c =? 88) v) as (s & Ds); [eapply unsigned_range; eauto|].
    exists args, s. split; [|exact I]. eapply DHex; eauto. }
  destruct (Z.eq_dec c 100) as [->|N1]; [apply DS; auto|]. destruct (Z.eq_dec c 105) as [->|N2]; [apply DS; auto|].
  destruct (Z.eq_dec c 117) as [->|N3].
  { destruct (unsigned_exists w a) as (v & D). destruct (decimal_exists v) as (s & Ds); [pose proof (unsigned_range _ _ _ D); lia|].
    exists args, s. split; [|exact I]. eapply DUnsigned; eauto. }
  destruct (Z.eq_dec c 120) as [->|N4]; [apply DX; auto|]. destruct (Z.eq_dec c 88) as [->|N5]; [apply DX; auto|].
  destruct (Z.eq_dec c 112) as [->|N6].
  { destruct (unsigned_exists WLong a) as (v & D). destruct (hexadecimal_exists false v) as (s & Ds); [eapply unsigned_range; eauto|].
    exists args, (48 :: 120 :: s). split; [|exact I]. eapply DPointer; eauto. }
  destruct (Z.eq_dec c 99) as [->|N7].
  { pose proof (Z.div_mod a 256 ltac:(lia)) as E. pose proof (Z.mod_pos_bound a 256 ltac:(lia)).
    destruct (Z.eq_dec (a mod 256) 0) as [E0|N0].
    - exists args, []. split; [|exact I]. replace a with (a / 256 * 256) by lia. apply DNul.
    - exists args, [a mod 256]. split; [|exact I]. apply DCharArg; [lia|]. exists (a / 256). lia. }
  destruct (Z.eq_dec c 115) as [->|N8].
  { exists args, st0. split; [|exact I]. apply DString; auto. }
  destruct (Z.eq_dec c 37) as [->|N9].
  { exists (a :: args), [37]. split; [|exact J]. apply DPercent. }
  exists (a :: args), [37; c]. split; [|exact J]. apply DOther. cbn [In]. intuition congruence.
Qed.
Lemma parse_total (g : cstr) : (exists w, g = width_chars w) \/ exists w c r, g = width_chars w ++ c :: r /\ modifier w c.
Proof.
  assert (Two : forall x w1 w2 (g : cstr), width_chars w1 = [x] -> width_chars w2 = [x; x] -> (forall c, c <> x -> modifier w1 c) -> (forall c, modifier w2 c) ->
    (exists w, x :: g = width_chars w) \/ exists w c r, x :: g = width_chars w ++ c :: r /\ modifier w c).
  { clear. intros x w1 w2 g E1 E2 M1 M2. destruct g as [|y g]; [left; exists w1; auto|]. destruct (Z.eq_dec y x) as [->|N].
    - destruct g as [|c r]; [left; exists w2; auto|]. right. exists w2, c, r. rewrite E2. auto.
    - right. exists w1, y, g. rewrite E1. auto. }
  destruct g as [|x g]; [left; exists WNone; reflexivity|].
  destruct (Z.eq_dec x 104) as [->|N1]; [apply (Two 104 WShort WChar); cbn; auto|].
  destruct (Z.eq_dec x 108) as [->|N2]; [apply (Two 108 WLong WLongLong); cbn; auto|].
  destruct (Z.eq_dec x 122) as [->|N3].
  - destruct g as [|c r]; [left; exists WSize; reflexivity|]. right. exists WSize, c, r. cbn. auto.
  - right. exists WNone, x, g. cbn. auto.
Qed.
Lemma writes_total m : forall n fmt args, (length fmt <= n)%nat -> (length fmt <= length args)%nat ->
  (forall a, In a args -> (exists s, str_at m a s) /\ a mod 2 ^ 64 <> 2 ^ 63) -> exists out, writes m fmt args out.
Proof.
  induction n as [|n IH]; intros fmt args L A H.
  - destruct fmt; [|cbn in L; lia]. exists []. constructor.
  - destruct fmt as [|c f]; [exists []; constructor|]. cbn [length] in L, A. destruct (Z.eq_dec c 37) as [->|N].
    + destruct (parse_total f) as [(w & ->)|(w & c & r & -> & M)]; [exists []; constructor|].
      rewrite app_length in L, A. cbn [length] in L, A.
      destruct args as [|a args]; [cbn in A; lia|]. cbn [length] in A. destruct (H a (or_introl eq_refl)) as [S1 S2].
      destruct (directive_total m w c a args S1 S2) as (args' & s & D & I & Ln).
      destruct (IH r args') as (out & X); [lia|lia|intros x Hx; apply H, I; auto|].
      exists (s ++ out). apply (WrDir m w c r (a :: args) args' s out); auto.
    + destruct (IH f args) as (out & X); [lia|lia|auto|]. exists (c :: out). constructor; auto.
Qed.

(** *** pieces *)
Lemma pieces_one s calls : pieces s calls -> zlen s <= 4096 -> calls = [s].
Proof.
  intros (E & full & rest & -> & F & L & N) B. destruct full as [|c full].
  - cbn in *. rewrite app_nil_r in E. rewrite E. reflexivity.
  - exfalso. inversion F; subst. rewrite concat_app in B. cbn [concat] in B. rewrite !app_length in B.
    destruct rest as [|x rest]; [apply N; [discriminate|reflexivity]|]. cbn [length] in B. lia.
Qed.
Lemma received_all calls : received [] calls = concat calls.
Proof. induction calls as [|c r IH]; [reflexivity|]. cbn. rewrite IH. reflexivity. Qed.
Lemma pieces_unique s c1 c2 : pieces s c1 -> pieces s c2 -> c1 = c2.
Proof.
  intros (E1 & f1 & r1 & -> & F1 & L1 & N1) (E2 & f2 & r2 & -> & F2 & L2 & N2). rewrite <- E1 in E2. clear E1 s.
  revert f2 F2 N2 E2. induction f1 as [|x f1 IH]; intros [|y f2] F2 N2 E2; cbn [app concat] in *.
  - rewrite !app_nil_r in E2. congruence.
  - exfalso. rewrite app_nil_r in E2. pose proof (Forall_inv F2) as Hy; cbn in Hy. pose proof (f_equal (@length Z) E2) as K. rewrite app_length, concat_app, app_length in K. cbn [concat] in K. rewrite app_length in K.
    destruct r2; [apply N2; [discriminate|reflexivity]|]. cbn [length] in K. lia.
  - exfalso. rewrite app_nil_r in E2. pose proof (Forall_inv F1) as Hy; cbn in Hy. pose proof (f_equal (@length Z) E2) as K. rewrite app_length, concat_app, app_length in K. cbn [concat] in K. rewrite app_length in K.
    destruct r1; [apply N1; [discriminate|reflexivity]|]. cbn [length] in K. lia.
  - inversion F1; inversion F2; subst.
    assert (y = x /\ concat (f2 ++ [r2]) = concat (f1 ++ [r1])) as [-> E3].
    { assert (K : length y = length x) by lia. pose proof (f_equal (firstn (length y)) E2) as Q1. pose proof (f_equal (skipn (length y)) E2) as Q2.
      rewrite firstn_app, Nat.sub_diag, firstn_O, app_nil_r, firstn_all in Q1. rewrite K, firstn_app, Nat.sub_diag, firstn_O, app_nil_r, firstn_all in Q1.
      rewrite skipn_app, Nat.sub_diag, skipn_all, skipn_O in Q2. rewrite K, skipn_app, Nat.sub_diag, skipn_all, skipn_O in Q2. auto. }
    f_equal. apply IH; auto.
    + intros H. apply N1. discriminate.
    + intros H. apply N2. discriminate.
Qed.

(** *** strcmp *)
Lemma cmp_val_app u s t : cmp_val (u ++ s) (u ++ t) = cmp_val s t.
Proof. induction u as [|a u IH]; [reflexivity|]. cbn. rewrite Z.eqb_refl. exact IH. Qed.

(** *** strnlen and strncat where they go wrong *)
Lemma ld_cases m a : (exists b, ld m a = Ok b /\ holds m a b) \/ (ld m a = Fault OutOfBounds /\ forall b, ~ holds m a b).
Proof.
  destruct (ld m a) as [b|e] eqn:El; [left; exists b; split; [auto|apply ld_holds; auto]|right]. split.
  - unfold ld in El. destruct (a <? 0); [congruence|]. destruct (nth_error m (Z.to_nat a)) as [[|]|]; congruence.
  - intros b H. rewrite (holds_ld _ _ _ H) in El. discriminate.
Qed.
Lemma strnlen_loop_over m p n : forall s f i, wf_cstr s -> bytes_at m (p + i) s -> i + zlen s = n -> (forall b, ~ holds m (p + n) b) -> (length s < f)%nat ->
  strnlen_loop f m p n i = Fault OutOfBounds.
Proof.
  induction s as [|c s IH]; intros [|f] i W H E N F; cbn [length] in *; try lia; cbn [strnlen_loop].
  - destruct (ld_cases m (p + i)) as [(b & _ & Hb)|(-> & _)]; [|reflexivity]. elim (N b). replace (p + n) with (p + i) by lia. exact Hb.
  - destruct H as [H H']. rewrite (holds_ld _ _ _ H). cbn [bind]. pose proof (Forall_inv W) as Wc. pose proof (Forall_inv_tail W) as Ws. cbn beta in Wc.
    destruct (Z.eqb_spec c 0); [lia|]. destruct (Z.ltb_spec i n); [|lia]. cbn [negb andb].
    apply IH; auto; try lia. replace (p + (i + 1)) with (p + i + 1) by lia. auto.
Qed.
Lemma strnlen_over m p n s : wf_cstr s -> zlen s = n -> bytes_at m p s -> (forall b, ~ holds m (p + n) b) -> gotcha_strnlen m p n = Fault OutOfBounds.
Proof.
  intros W E H N. unfold gotcha_strnlen. apply (strnlen_loop_over m p n s); auto; rewrite ?Z.add_0_r; auto; try lia.
  destruct s as [|c s]; [cbn; lia|]. apply bytes_at_bound in H; [|discriminate]. lia.
Qed.
Lemma memcpy_loop_needs : forall n m d s m', memcpy_loop n m d s = Ok m' -> accessible m s (Z.of_nat n) /\ accessible m d (Z.of_nat n).
Proof.
  induction n as [|n IH]; intros m d s m' E; [split; intros a Ha; lia|]. cbn [memcpy_loop] in E.
  destruct (ld_cases m s) as [(b & Eb & Hb)|(Eb & _)]; rewrite Eb in E; cbn [bind] in E; [|discriminate].
  destruct (ld_cases m d) as [(x & Ex & Hx)|(Ex & _)].
  2: { unfold st in E. rewrite Ex in E. discriminate. }
  destruct (st_ok m d x b Hx) as (m1 & E1 & H1 & S1). rewrite E1 in E. cbn [bind] in E. destruct (IH _ _ _ _ E) as [A B].
  assert (Back : forall a, (exists b, holds m1 a b) -> exists b, holds m a b).
  { intros a (y & Hy). destruct (Z.eq_dec a d) as [->|Na]; [eauto|]. exists y. destruct Hy as [P Hy]. split; [auto|]. rewrite <- Hy. symmetry. apply S1. lia. }
  split; intros a Ha.
  - destruct (Z.eq_dec a s) as [->|N]; [eauto|]. apply Back, A. lia.
  - destruct (Z.eq_dec a d) as [->|N]; [eauto|]. apply Back, B. lia.
Qed.
Lemma memcpy_loop_fault : forall n m d s e, memcpy_loop n m d s = Fault e -> e = OutOfBounds.
Proof.
  induction n as [|n IH]; intros m d s e E; [discriminate|]. cbn [memcpy_loop] in E.
  destruct (ld_cases m s) as [(b & Eb & Hb)|(Eb & _)]; rewrite Eb in E; cbn [bind] in E; [|congruence].
  destruct (ld_cases m d) as [(x & Ex & Hx)|(Ex & _)]; unfold st in E; rewrite Ex in E; cbn [bind] in E; [eauto|congruence].
Qed.
(** source shorter than n - 1: the string is appended all the same, but [n] bytes are read and written *)
Lemma strncat_over m dest src n d s : str_at m dest d -> str_at m src s -> zlen s < n ->
  (src + n <= dest \/ dest + zlen d + n <= src) ->
  if_accessible m (dest + zlen d) src n (gotcha_strncat m dest src n) (fun m' =>
    str_at m' dest (d ++ s) /\ same_but m m' (dest + zlen d) n /\
    forall i b, 0 <= i < n -> holds m (src + i) b -> holds m' (dest + zlen d + i) (b mod 256)).
Proof.
  intros HD HS Hn O. unfold if_accessible, gotcha_strncat. rewrite (strlen_ok _ _ _ HD). cbn [bind].
  assert (NS : nstr_at m src n s) by (split; [apply HS|left; split; [lia|apply HS]]).
  rewrite (strnlen_ok m src n s NS).
  2: { exists 0. destruct HS as [_ HS]. apply bytes_at_app in HS as [_ HS]. apply HS. }
  cbn [bind]. unfold gotcha_memcpy. split.
  - intros A B. destruct (A (dest + zlen d + zlen s)) as (x & Hx); [lia|].
    destruct (st_ok m _ x 0 Hx) as (m1 & -> & H1 & S1). cbn [bind].
    assert (A1 : forall q j, accessible m q j -> accessible m1 q j).
    { intros q j. apply (same_but_accessible _ _ _ _ _ _ S1). intros a Ha. replace a with (dest + zlen d + zlen s) by lia. eauto. }
    destruct (memcpy_loop_ok (Z.to_nat n) m1 (dest + zlen d) src) as (m2 & -> & S2 & H2); rewrite ?Z2Nat.id in * by lia; auto; [lia|].
    assert (H3 : forall i b, 0 <= i < n -> holds m (src + i) b -> holds m2 (dest + zlen d + i) (b mod 256)).
    { intros i b Hi Hb. apply H2; auto. eapply same_but_holds; [exact S1|lia|exact Hb]. }
    exists m2. split; [auto|]. split; [|split; [|exact H3]].
    + split; [apply wf_app; split; [apply HD|apply HS]|]. rewrite <- app_assoc. apply bytes_at_app. split.
      * destruct HD as [_ HD]. apply bytes_at_app in HD as [HD _]. eapply bytes_at_same; [exact S2|lia|]. eapply bytes_at_same; [exact S1|lia|exact HD].
      * apply nth_bytes_at. intros i b E. pose proof (bytes_at_nth _ _ _ _ _ (proj2 HS) E) as Hb.
        assert (Hi : (i < length (s ++ [0%Z]))%nat) by (eapply nth_error_Some_lt; eauto). rewrite app_length in Hi. cbn [length] in Hi.
        assert (Eb : b mod 256 = b).
        { apply Z.mod_small. apply nth_error_In, in_app_or in E. destruct E as [E|[<-|[]]]; [|lia].
          pose proof (proj1 (Forall_forall _ _) (proj1 HS) b E) as R. cbn in R. lia. }
        rewrite <- Eb. apply H3; [lia|exact Hb].
    + eapply same_but_trans; [|exact S2]. eapply same_but_wider; [exact S1|lia|lia].
  - intros N. destruct (ld_cases m (dest + zlen d + zlen s)) as [(x & Ex & Hx)|(Ex & _)].
    2: { unfold st. rewrite Ex. reflexivity. }
    destruct (st_ok m _ x 0 Hx) as (m1 & -> & H1 & S1). cbn [bind].
    destruct (memcpy_loop (Z.to_nat n) m1 (dest + zlen d) src) as [m2|e] eqn:E2.
    + exfalso. apply memcpy_loop_needs in E2 as [A B]. rewrite Z2Nat.id in * by lia.
      assert (Back : forall a, (exists b, holds m1 a b) -> exists b, holds m a b).
      { intros a (y & Hy). destruct (Z.eq_dec a (dest + zlen d + zlen s)) as [->|Na]; [eauto|].
        exists y. destruct Hy as [P Hy]. split; [auto|]. rewrite <- Hy. symmetry. apply S1. lia. }
      destruct N as [N|N]; apply N; intros a Ha; apply Back; [apply B|apply A]; exact Ha.
    + f_equal. eapply memcpy_loop_fault; eauto.
Qed.
