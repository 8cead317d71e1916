(** Proofs about the internal string functions. *)
From Verif Require Import Base ListFacts LibcModel SpecLibc.

Notation zlen l := (Z.of_nat (length l)).

Lemma holds_ld m a b : holds m a b -> ld m a = Ok b.
Proof. intros [H E]. unfold ld. destruct (Z.ltb_spec a 0); [lia|]. rewrite E. reflexivity. Qed.
Lemma ld_holds m a b : ld m a = Ok b -> holds m a b.
Proof.
  unfold ld, holds. destruct (Z.ltb_spec a 0); [discriminate|].
  destruct (nth_error m (Z.to_nat a)) as [[c|]|]; try discriminate. intros [= ->]. split; [lia|auto].
Qed.
Lemma holds_fun m a b c : holds m a b -> holds m a c -> b = c.
Proof. intros [_ H] [_ K]. congruence. Qed.
Lemma holds_lt m a b : holds m a b -> 0 <= a < zlen m.
Proof. intros [H E]. apply nth_error_Some_lt in E. lia. Qed.

Lemma same_but_refl m p n : same_but m m p n.
Proof. split; auto. Qed.
Lemma same_but_holds m m' p n a b : same_but m m' p n -> ~ p <= a < p + n -> holds m a b -> holds m' a b.
Proof. intros [_ H] N [K E]. split; [auto|]. rewrite H; [auto|]. lia. Qed.
Lemma same_but_trans m m' m'' p n : same_but m m' p n -> same_but m' m'' p n -> same_but m m'' p n.
Proof. intros [L H] [L' H']. split; [congruence|]. intros a N. rewrite H', H; auto. Qed.
Lemma same_but_wider m m' p n p' n' : same_but m m' p n -> p' <= p -> p + n <= p' + n' -> same_but m m' p' n'.
Proof. intros [L H] A B. split; [auto|]. intros a N. apply H. lia. Qed.
Lemma st_ok m a b v : holds m a b -> exists m', st m a v = Ok m' /\ holds m' a (v mod 256) /\ same_but m m' a 1.
Proof.
  intros H. unfold st. rewrite (holds_ld _ _ _ H). cbn [bind]. eexists. split; [reflexivity|]. destruct H as [H E]. split.
  - split; [auto|]. rewrite nth_error_upd_eq, E. reflexivity.
  - split; [apply upd_length|]. intros c N. apply nth_error_upd_neq. lia.
Qed.
Lemma same_but_accessible m m' p n q k : same_but m m' p n -> (forall a, p <= a < p + n -> exists b, holds m' a b) -> accessible m q k -> accessible m' q k.
Proof.
  intros H N A a Ha. destruct (A a Ha) as (b & Hb).
  destruct (Z_le_gt_dec p a); [destruct (Z_lt_le_dec a (p + n)); [apply N; lia|]|]; exists b; eapply same_but_holds; eauto; lia.
Qed.

Lemma bytes_at_app m p l r : bytes_at m p (l ++ r) <-> bytes_at m p l /\ bytes_at m (p + zlen l) r.
Proof.
  revert p; induction l as [|b l IH]; intros p; cbn [app bytes_at length].
  - rewrite Z.add_0_r. tauto.
  - rewrite IH. replace (p + 1 + zlen l) with (p + Z.of_nat (S (length l))) by lia. tauto.
Qed.
Lemma bytes_at_nth m p l i b : bytes_at m p l -> nth_error l i = Some b -> holds m (p + Z.of_nat i) b.
Proof.
  revert p i; induction l as [|c l IH]; intros p i; [destruct i; discriminate|]. intros [H K] E. destruct i as [|i].
  - cbn in E. injection E as <-. replace (p + Z.of_nat 0) with p by lia. auto.
  - cbn in E. specialize (IH _ _ K E). replace (p + Z.of_nat (S i)) with (p + 1 + Z.of_nat i) by lia. auto.
Qed.
Lemma nth_bytes_at m p l : (forall i b, nth_error l i = Some b -> holds m (p + Z.of_nat i) b) -> bytes_at m p l.
Proof.
  revert p; induction l as [|c l IH]; intros p H; [exact I|]. split.
  - specialize (H 0%nat c eq_refl). replace (p + Z.of_nat 0) with p in H by lia. auto.
  - apply IH. intros i b E. specialize (H (S i) b E). replace (p + 1 + Z.of_nat i) with (p + Z.of_nat (S i)) by lia. auto.
Qed.
Lemma bytes_at_bound m p l : bytes_at m p l -> l <> [] -> 0 <= p /\ p + zlen l <= zlen m.
Proof.
  intros H N. destruct l as [|b l]; [congruence|]. split; [apply (proj1 (proj1 H))|].
  destruct (nth_error_lt_Some (b :: l) (length l)) as (c & E); [cbn; lia|].
  specialize (bytes_at_nth _ _ _ _ _ H E). intros K. apply holds_lt in K. cbn [length]. lia.
Qed.
Lemma bytes_at_same m m' p n q l : same_but m m' p n -> (q + zlen l <= p \/ p + n <= q) -> bytes_at m q l -> bytes_at m' q l.
Proof.
  intros H N K. apply nth_bytes_at. intros i b E. pose proof (nth_error_Some_lt _ _ _ E).
  eapply same_but_holds; [eauto|lia|]. eapply bytes_at_nth; eauto.
Qed.
Lemma bytes_at_accessible m p l : bytes_at m p l -> accessible m p (zlen l).
Proof.
  intros H a Ha. destruct (nth_error_lt_Some l (Z.to_nat (a - p))) as (b & E); [lia|].
  exists b. specialize (bytes_at_nth _ _ _ _ _ H E). rewrite Z2Nat.id by lia. now replace (p + (a - p)) with a by lia.
Qed.
Lemma str_at_len m p s : str_at m p s -> (length s < length m)%nat.
Proof.
  intros [_ H]. destruct (bytes_at_bound _ _ _ H) as [A B]; [destruct s; discriminate|]. rewrite app_length in B. cbn in B. lia.
Qed.
Lemma str_at_fun m p s t : str_at m p s -> str_at m p t -> s = t.
Proof.
  intros [W H] [V K]. revert p t H K V. induction W as [|b s Hb W IH]; intros p t H K V; destruct V as [|c t Hc V]; auto; cbn in H, K; destruct H as [H H'], K as [K K'];
    specialize (holds_fun _ _ _ _ H K); intros; subst; try lia.
  f_equal. eapply IH; eauto.
Qed.

Lemma incr_ok i : i < INT_MAX -> incr i = Ok (i + 1).
Proof. intros H. unfold incr. destruct (Z.ltb_spec i INT_MAX); [auto|lia]. Qed.

(** *** strcmp, strncmp *)
(** the value returned *)
Fixpoint cmp_val (s t : cstr) : Z :=
  match s, t with
  | [], [] => 0
  | [], _ :: _ => 1
  | a :: _, [] => schar a
  | a :: s', b :: t' => if a =? b then cmp_val s' t' else schar a - schar b
  end.
Lemma schar_inj a b : 0 <= a <= 255 -> 0 <= b <= 255 -> schar a = schar b -> a = b.
Proof. unfold schar. intros. destruct (a <? 128) eqn:?, (b <? 128) eqn:?; lia. Qed.
Lemma cmp_val_0 s t : wf_cstr s -> wf_cstr t -> cmp_val s t = 0 <-> s = t.
Proof.
  intros W. revert t. induction W as [|a s Ha W IH]; intros t V; destruct V as [|b t Hb V]; cbn; try (split; congruence).
  - split; [|congruence]. intros E. assert (a = 0) by (apply schar_inj; cbn; auto; lia). lia.
  - destruct (Z.eqb_spec a b) as [->|N].
    + rewrite IH by auto. split; congruence.
    + split; [|congruence]. intros E. elim N. apply schar_inj; lia.
Qed.
Lemma cmp_val_sign s t : Forall (fun b => 1 <= b < 128) s -> Forall (fun b => 1 <= b < 128) t -> (forall b r, t <> s ++ b :: r) ->
  Z.sgn (cmp_val s t) = libc_strcmp s t.
Proof.
  intros W. revert t. induction W as [|a s Ha W IH]; intros t V NP; destruct V as [|b t Hb V]; cbn; auto.
  - elim (NP b t). reflexivity.
  - unfold schar. destruct (Z.ltb_spec a 128); lia.
  - destruct (Z.eqb_spec a b) as [->|N].
    + apply IH; auto. intros c r E. apply (NP c r). cbn. congruence.
    + unfold schar. destruct (Z.ltb_spec a 128), (Z.ltb_spec b 128), (Z.ltb_spec a b); lia.
Qed.
Lemma strcmp_loop_ok m p q : forall s t f i, str_at m (p + i) s -> str_at m (q + i) t -> (length s < f)%nat -> 0 <= i -> i + zlen s <= INT_MAX ->
  strcmp_loop f m p q i = Ok (cmp_val s t).
Proof.
  induction s as [|a s IH]; intros t f i [W H] [V K] F I0 IM; (destruct f as [|f]; [cbn in F; lia|]); cbn in H.
  - cbn [strcmp_loop]. rewrite (holds_ld _ _ _ (proj1 H)). cbn [bind].
    destruct t as [|b t]; cbn in K; rewrite (holds_ld _ _ _ (proj1 K)); cbn [bind Z.eqb cmp_val]; auto.
    inversion V; subst. destruct (Z.eqb_spec b 0); [lia|auto].
  - cbn [strcmp_loop]. rewrite (holds_ld _ _ _ (proj1 H)). cbn [bind]. inversion W as [|? ? Ha W']; subst.
    destruct t as [|b t]; cbn in K; rewrite (holds_ld _ _ _ (proj1 K)); cbn [bind cmp_val].
    + destruct (Z.eqb_spec a 0); [lia|]. cbn. now rewrite Z.sub_0_r.
    + inversion V as [|? ? Hb V']; subst. destruct (Z.eqb_spec a 0); [lia|]. destruct (Z.eqb_spec a b) as [->|N]; cbn [negb]; auto.
      cbn [length] in F, IM. rewrite incr_ok by lia. cbn [bind].
      apply IH; try lia; (split; [assumption|]); rewrite Z.add_assoc; tauto.
Qed.
Lemma strcmp_ok m p q s t : str_at m p s -> str_at m q t -> short s -> gotcha_strcmp m p q = Ok (cmp_val s t).
Proof.
  intros H K L. apply strcmp_loop_ok; rewrite ?Z.add_0_r; auto; try lia. apply str_at_len in H. lia.
Qed.

Lemma strncmp_loop_ok m p q n : 0 <= n <= INT_MAX -> forall s t f i, nstr_at m (p + i) (n - i) s -> nstr_at m (q + i) (n - i) t -> (length s + 1 < f)%nat -> 0 <= i <= n ->
  strncmp_loop f m p q n i = Ok (cmp_val s t).
Proof.
  intros Hn. induction s as [|a s IH]; intros t f i [W H] [V K] F I0; (destruct f as [|f]; [cbn in F; lia|]); cbn [strncmp_loop].
  - destruct (Z.ltb_spec i n) as [Li|Li].
    + destruct H as [[L H]|[L H]]; cbn in L; [|lia]. cbn in H. rewrite (holds_ld _ _ _ (proj1 H)). cbn [bind].
      destruct t as [|b t].
      * destruct K as [[L' K]|[L' K]]; cbn in L'; [|lia]. cbn in K. rewrite (holds_ld _ _ _ (proj1 K)). reflexivity.
      * assert (K' : holds m (q + i) b) by (destruct K as [[_ K]|[_ K]]; cbn in K; apply K).
        rewrite (holds_ld _ _ _ K'). cbn [bind Z.eqb cmp_val]. inversion V; subst. destruct (Z.eqb_spec b 0); [lia|auto].
    + destruct t as [|b t]; [reflexivity|]. destruct K as [[L _]|[L _]]; cbn [length] in L; lia.
  - assert (H' : holds m (p + i) a) by (destruct H as [[_ H]|[_ H]]; cbn in H; apply H).
    assert (Li : i < n) by (destruct H as [[L _]|[L _]]; cbn [length] in L; lia).
    destruct (Z.ltb_spec i n); [|lia]. rewrite (holds_ld _ _ _ H'). cbn [bind]. inversion W as [|? ? Ha W']; subst.
    destruct t as [|b t].
    + destruct K as [[L' K]|[L' K]]; cbn in L'; [|lia]. cbn in K. rewrite (holds_ld _ _ _ (proj1 K)). cbn [bind cmp_val].
      destruct (Z.eqb_spec a 0); [lia|]. cbn. now rewrite Z.sub_0_r.
    + assert (K' : holds m (q + i) b) by (destruct K as [[_ K]|[_ K]]; cbn in K; apply K).
      rewrite (holds_ld _ _ _ K'). cbn [bind cmp_val]. inversion V as [|? ? Hb V']; subst.
      destruct (Z.eqb_spec a 0); [lia|]. destruct (Z.eqb_spec a b) as [->|N]; cbn [negb]; auto.
      cbn [length] in F. rewrite incr_ok by lia. cbn [bind].
      apply IH; try lia; (split; [assumption|]); rewrite Z.add_assoc.
      * destruct H as [[L H]|[L H]]; [left|right]; cbn [length] in L; (split; [lia|]); cbn in H; apply H.
      * destruct K as [[L K]|[L K]]; [left|right]; cbn [length] in L; (split; [lia|]); cbn in K; apply K.
Qed.
Lemma nstr_at_len m p n s : nstr_at m p n s -> s = [] \/ (length s <= length m)%nat.
Proof.
  intros [_ [[_ H]|[_ H]]].
  - right. destruct (bytes_at_bound _ _ _ H) as [A B]; [destruct s; discriminate|]. rewrite app_length in B. cbn in B. lia.
  - destruct s as [|b s]; [auto|right]. destruct (bytes_at_bound _ _ _ H) as [A B]; [discriminate|]. lia.
Qed.
Lemma strncmp_ok m p q n s t : 0 <= n <= INT_MAX -> nstr_at m p n s -> nstr_at m q n t -> gotcha_strncmp m p q n = Ok (cmp_val s t).
Proof.
  intros Hn H K. apply strncmp_loop_ok; rewrite ?Z.add_0_r, ?Z.sub_0_r; auto; try lia.
  destruct (nstr_at_len _ _ _ _ H) as [->|L]; cbn; lia.
Qed.
Lemma str_nstr m p n s : 0 <= n -> str_at m p s -> nstr_at m p n (firstn (Z.to_nat n) s).
Proof.
  intros Hn [W H]. split.
  - apply Forall_forall. intros b Hb. eapply Forall_forall in W; [apply W|]. rewrite <- (firstn_skipn (Z.to_nat n) s). apply in_or_app. auto.
  - rewrite firstn_length. destruct (le_lt_dec (Z.to_nat n) (length s)) as [L|L].
    + right. split; [lia|]. rewrite <- (firstn_skipn (Z.to_nat n) s), <- app_assoc in H. apply bytes_at_app in H. tauto.
    + left. rewrite firstn_all2 by lia. split; [lia|auto].
Qed.

(** *** strlen, strnlen, memcpy, memset, strncat *)
Lemma strlen_loop_ok m p : forall s f i, str_at m (p + i) s -> (length s < f)%nat -> strlen_loop f m p i = Ok (i + zlen s).
Proof.
  induction s as [|a s IH]; intros f i [W H] F; (destruct f as [|f]; [cbn in F; lia|]); cbn in H; cbn [strlen_loop]; rewrite (holds_ld _ _ _ (proj1 H)); cbn [bind].
  - cbn. now rewrite Z.add_0_r.
  - inversion W as [|? ? Ha W']; subst. destruct (Z.eqb_spec a 0); [lia|]. cbn [length] in *. rewrite IH; [f_equal; lia| |lia].
    split; [auto|]. rewrite Z.add_assoc. tauto.
Qed.
Lemma strlen_ok m p s : str_at m p s -> gotcha_strlen m p = Ok (zlen s).
Proof.
  intros H. unfold gotcha_strlen. rewrite (strlen_loop_ok _ _ s); rewrite ?Z.add_0_r; auto. apply str_at_len in H. lia.
Qed.
(** the byte at index max is read *)
Lemma strnlen_loop_ok m p n : forall s f i, nstr_at m (p + i) (n - i) s -> (exists b, holds m (p + i + zlen s) b) -> (length s < f)%nat ->
  strnlen_loop f m p n i = Ok (i + zlen s).
Proof.
  induction s as [|a s IH]; intros f i [W H] (z & Z0) F; (destruct f as [|f]; [cbn in F; lia|]); cbn [strnlen_loop].
  - cbn in Z0. rewrite Z.add_0_r in Z0. rewrite (holds_ld _ _ _ Z0). cbn [bind length]. rewrite Z.add_0_r.
    destruct H as [[L H]|[L H]].
    + cbn in H. specialize (holds_fun _ _ _ _ Z0 (proj1 H)). intros ->. reflexivity.
    + cbn in L. destruct (Z.ltb_spec i n); [lia|]. now rewrite andb_false_r.
  - assert (H' : holds m (p + i) a) by (destruct H as [[_ H]|[_ H]]; cbn in H; apply H).
    assert (Li : i < n) by (destruct H as [[L _]|[L _]]; cbn [length] in L; lia).
    rewrite (holds_ld _ _ _ H'). cbn [bind]. inversion W as [|? ? Ha W']; subst.
    destruct (Z.eqb_spec a 0); [lia|]. destruct (Z.ltb_spec i n); [|lia]. cbn [negb andb length] in *.
    rewrite IH; [f_equal; lia| | |lia].
    + split; [auto|]. rewrite Z.add_assoc. destruct H as [[L H]|[L H]]; [left|right]; cbn [length] in L; (split; [lia|]); cbn in H; apply H.
    + exists z. now replace (p + (i + 1) + zlen s) with (p + i + Z.of_nat (S (length s))) by lia.
Qed.
Lemma strnlen_ok m p n s : nstr_at m p n s -> (exists b, holds m (p + zlen s) b) -> gotcha_strnlen m p n = Ok (zlen s).
Proof.
  intros H B. unfold gotcha_strnlen. rewrite (strnlen_loop_ok _ _ _ s); rewrite ?Z.add_0_r, ?Z.sub_0_r; auto.
  destruct (nstr_at_len _ _ _ _ H) as [->|L]; [cbn; lia|lia].
Qed.

Lemma memset_loop_ok c : forall n m s, accessible m s (Z.of_nat n) ->
  exists m', memset_loop n m s c = Ok m' /\ same_but m m' s (Z.of_nat n) /\ forall a, s <= a < s + Z.of_nat n -> holds m' a (c mod 256).
Proof.
  induction n as [|n IH]; intros m s A; cbn [memset_loop].
  - exists m. split; [auto|]. split; [apply same_but_refl|]. intros; lia.
  - destruct (A s) as (b & Hb); [lia|]. destruct (st_ok m s b c Hb) as (m1 & -> & H1 & S1). cbn [bind].
    destruct (IH m1 (s + 1)) as (m2 & -> & S2 & H2).
    { intros a Ha. eapply same_but_accessible with (q := s) (k := Z.of_nat (S n)); eauto; [|lia].
      intros x Hx. replace x with s by lia. eauto. }
    exists m2. split; [auto|]. split.
    + eapply same_but_trans; eapply same_but_wider; eauto; lia.
    + intros a Ha. destruct (Z.eq_dec a s) as [->|N]; [|apply H2; lia].
      eapply same_but_holds; [eauto|lia|auto].
Qed.
Lemma memcpy_loop_ok : forall n m d s, (d <= s \/ s + Z.of_nat n <= d) -> accessible m d (Z.of_nat n) -> accessible m s (Z.of_nat n) ->
  exists m', memcpy_loop n m d s = Ok m' /\ same_but m m' d (Z.of_nat n) /\
    forall i b, 0 <= i < Z.of_nat n -> holds m (s + i) b -> holds m' (d + i) (b mod 256).
Proof.
  induction n as [|n IH]; intros m d s O A B; cbn [memcpy_loop].
  - exists m. split; [auto|]. split; [apply same_but_refl|]. intros; lia.
  - destruct (A d) as (x & Hx); [lia|]. destruct (B s) as (b & Hb); [lia|].
    rewrite (holds_ld _ _ _ Hb). cbn [bind].
    destruct (st_ok m d x b Hx) as (m1 & -> & H1 & S1). cbn [bind].
    assert (A1 : forall q k, accessible m q k -> accessible m1 q k).
    { intros q k. apply (same_but_accessible _ _ _ _ _ _ S1). intros a Ha. replace a with d by lia. eauto. }
    destruct (IH m1 (d + 1) (s + 1)) as (m2 & -> & S2 & H2); [lia| | |].
    { intros a Ha. apply (A1 _ _ A). lia. }
    { intros a Ha. apply (A1 _ _ B). lia. }
    exists m2. split; [auto|]. split.
    + eapply same_but_trans; eapply same_but_wider; eauto; lia.
    + intros i c Hi Hc. destruct (Z.eq_dec i 0) as [->|N].
      * rewrite Z.add_0_r in *. rewrite (holds_fun _ _ _ _ Hc Hb). eapply same_but_holds; [eauto|lia|auto].
      * replace (d + i) with (d + 1 + (i - 1)) by lia. apply H2; [lia|].
        replace (s + 1 + (i - 1)) with (s + i) by lia. eapply same_but_holds; [eauto|lia|auto].
Qed.

Lemma wf_app s t : wf_cstr (s ++ t) <-> wf_cstr s /\ wf_cstr t.
Proof. apply Forall_app. Qed.
Lemma strncat_ok m dest src n d s : str_at m dest d -> str_at m src s -> 0 <= n <= zlen s + 1 ->
  accessible m dest (zlen d + Z.min n (zlen s) + 1) ->
  (src + zlen s < dest \/ dest + zlen d + Z.min n (zlen s) < src) ->
  exists m', gotcha_strncat m dest src n = Ok m' /\ str_at m' dest (d ++ firstn (Z.to_nat n) s) /\
    same_but m m' (dest + zlen d) (Z.min n (zlen s) + 1).
Proof.
  intros HD HS Hn A O. unfold gotcha_strncat. rewrite (strlen_ok _ _ _ HD). cbn [bind].
  set (c := firstn (Z.to_nat n) s).
  assert (Lc : zlen c = Z.min n (zlen s)) by (unfold c; rewrite firstn_length; lia).
  rewrite (strnlen_ok m src n c).
  2: { apply str_nstr; [lia|auto]. }
  2: { destruct (bytes_at_accessible _ _ _ (proj2 HS) (src + zlen c)) as (b & Hb); [rewrite app_length; cbn; lia|]. eauto. }
  cbn [bind]. rewrite Lc. set (k := Z.min n (zlen s)) in *.
  destruct (A (dest + zlen d + k)) as (x & Hx); [lia|].
  destruct (st_ok m _ x 0 Hx) as (m1 & -> & H1 & S1). cbn [bind].
  assert (A1 : forall q j, accessible m q j -> accessible m1 q j).
  { intros q j. apply (same_but_accessible _ _ _ _ _ _ S1). intros a Ha. replace a with (dest + zlen d + k) by lia. eauto. }
  unfold gotcha_memcpy. destruct (memcpy_loop_ok (Z.to_nat n) m1 (dest + zlen d) src) as (m2 & -> & S2 & H2).
  { rewrite Z2Nat.id by lia. lia. }
  { rewrite Z2Nat.id by lia. intros a Ha. eapply A1; [exact A|]. lia. }
  { rewrite Z2Nat.id by lia. intros a Ha. eapply A1; [apply (bytes_at_accessible _ _ _ (proj2 HS))|]. rewrite app_length. cbn [length]. lia. }
  rewrite Z2Nat.id in * by lia.
  assert (HS1 : bytes_at m1 src (s ++ [0])) by (eapply bytes_at_same; [exact S1| |apply HS]; rewrite app_length; cbn [length]; lia).
  exists m2. split; [auto|]. split.
  - destruct HS as [WS HS]. split.
    + apply wf_app. split; [apply HD|]. apply Forall_forall. intros b Hb. eapply Forall_forall in WS; [apply WS|].
      rewrite <- (firstn_skipn (Z.to_nat n) s). apply in_or_app. auto.
    + rewrite <- app_assoc. apply bytes_at_app. split.
      * eapply bytes_at_same; [exact S2|lia|]. eapply bytes_at_same; [exact S1|lia|]. destruct HD as [_ HD]. apply bytes_at_app in HD. tauto.
      * apply nth_bytes_at. intros i b E.
        assert (Hi : (i < length (c ++ [0%Z]))%nat) by (eapply nth_error_Some_lt; eauto). rewrite app_length in Hi. cbn [length] in Hi.
        destruct (Z_lt_le_dec (Z.of_nat i) n) as [Li|Li].
        -- assert (Es : nth_error (s ++ [0]) i = Some b).
           { destruct (lt_dec i (length c)).
             - rewrite nth_error_app1 in E by auto. rewrite nth_error_app1 by lia. unfold c in E.
               rewrite <- E. rewrite <- (firstn_skipn (Z.to_nat n) s) at 1. rewrite nth_error_app1; [auto|fold c; lia].
             - rewrite nth_error_app2 in E by lia. rewrite nth_error_app2 by lia. now replace (i - length s)%nat with (i - length c)%nat by lia. }
           specialize (bytes_at_nth _ _ _ _ _ HS1 Es). intros Hb.
           assert (Hbb : b mod 256 = b).
           { apply Z.mod_small. assert (In b (s ++ [0])) as J by (eapply nth_error_In; eauto). apply in_app_or in J as [J|[J|[]]]; [|lia].
             eapply Forall_forall in WS; [|eauto]. cbn in WS. lia. }
           rewrite <- Hbb. apply H2; [lia|auto].
        -- assert (i = length c) by lia. subst i. rewrite nth_error_app2, Nat.sub_diag in E by lia. injection E as <-.
           eapply same_but_holds; [exact S2|lia|]. rewrite Lc. exact H1.
  - eapply same_but_trans.
    + eapply same_but_wider; [exact S1|lia|lia].
    + (* when n = strlen + 1 the last byte copied is the terminator *)
      eapply same_but_wider; [exact S2|lia|lia].
Qed.
