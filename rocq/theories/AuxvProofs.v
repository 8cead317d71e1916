(** Proofs about the auxiliary vector. *)
From Verif Require Import Base ListFacts LibcModel SpecLibc LibcProofs LibcProofs2 LibcProofs3 AuxvModel SpecAuxv.

Lemma enc_length n v : length (enc n v) = n.
Proof. revert v; induction n as [|n IH]; intros v; cbn; auto. Qed.
Lemma le_enc n : forall v, 0 <= v < 256 ^ Z.of_nat n -> le (enc n v) = v.
Proof.
  induction n as [|n IH]; intros v H; [cbn in *; lia|]. rewrite Nat2Z.inj_succ, Z.pow_succ_r in H by lia. cbn [enc le].
  rewrite IH; [pose proof (Z.div_mod v 256 ltac:(lia)); lia|]. split; [apply Z.div_pos; lia|apply Z.div_lt_upper_bound; lia].
Qed.
Lemma enc_entry_length e : length (enc_entry e) = 16%nat.
Proof. unfold enc_entry. now rewrite app_length, !enc_length. Qed.
Lemma flat_length ents : length (flat_map enc_entry ents) = (16 * length ents)%nat.
Proof. induction ents as [|e ents IH]; [auto|]. cbn [flat_map length]. rewrite app_length, enc_entry_length, IH. lia. Qed.

Lemma fill_ok : forall l b i, (i + length l <= length b)%nat -> exists b', fill b i l = Ok b' /\ b' = firstn i b ++ l ++ skipn (i + length l) b.
Proof.
  induction l as [|x l IH]; intros b i H; cbn [fill length] in *.
  - exists b. split; [auto|]. rewrite Nat.add_0_r. cbn. now rewrite firstn_skipn.
  - destruct (Nat.ltb_spec i (length b)); [|lia]. destruct (IH (upd b i (fun _ => x)) (S i)) as (b' & -> & E).
    { rewrite upd_length. lia. }
    exists b'. split; [auto|]. rewrite E. rewrite firstn_upd_last by auto. rewrite <- app_assoc. cbn. f_equal. f_equal. f_equal.
    replace (i + S (length l))%nat with (S i + length l)%nat by lia. clear. 
    revert i. induction b as [|y b IHb]; intros i; [now destruct i|]. destruct i as [|i]; cbn; [reflexivity|].
    apply (IHb i).
Qed.

(** what read_loop establishes: the buffer holds a prefix of the content *)
Lemma skipn_add {A} (l : list A) a b : skipn a (skipn b l) = skipn (b + a) l.
Proof. revert l; induction b as [|b IH]; intros l; [reflexivity|]. destruct l as [|x l]; cbn [skipn Nat.add]; [now destruct a|apply IH]. Qed.
Lemma firstn_plus {A} (l : list A) a b : firstn (a + b) l = firstn a l ++ firstn b (skipn a l).
Proof. revert l; induction a as [|a IH]; intros [|x l]; cbn; rewrite ?firstn_nil; auto. now rewrite IH. Qed.
Lemma read_loop_ok D : forall fuel buffer offset sched,
  no_error sched -> length buffer = Z.to_nat 4096 -> 0 <= offset <= 4096 -> offset <= zlen D ->
  firstn (Z.to_nat offset) buffer = firstn (Z.to_nat offset) D ->
  (length sched + 2 < fuel)%nat ->
  exists buffer' f', read_loop fuel buffer offset (skipn (Z.to_nat offset) D, sched) = Ok (buffer', Z.min 4096 (zlen D), Some true, f') /\
    length buffer' = Z.to_nat 4096 /\ firstn (Z.to_nat (Z.min 4096 (zlen D))) buffer' = firstn (Z.to_nat (Z.min 4096 (zlen D))) D.
Proof.
  induction fuel as [|g IH]; intros buffer offset sched NE LB O1 O2 P F; [lia|]. cbn [read_loop].
  set (req := Z.to_nat (BUFFER_LEN - offset)). unfold BUFFER_LEN in req.
  (* a read that delivers k bytes at most *)
  assert (Step : forall k sched', (k <= req)%nat -> no_error sched' ->
     (forall buffer offset', offset' = offset + zlen (firstn k (skipn (Z.to_nat offset) D)) -> offset < offset' ->
        length buffer = Z.to_nat 4096 -> offset' <= 4096 -> offset' <= zlen D -> firstn (Z.to_nat offset') buffer = firstn (Z.to_nat offset') D ->
        exists buffer' f', read_loop g buffer offset' (skipn (Z.to_nat offset') D, sched') = Ok (buffer', Z.min 4096 (zlen D), Some true, f') /\
        length buffer' = Z.to_nat 4096 /\ firstn (Z.to_nat (Z.min 4096 (zlen D))) buffer' = firstn (Z.to_nat (Z.min 4096 (zlen D))) D) ->
     (k = 0%nat -> req = 0%nat) ->
     exists buffer' f',
       (do buffer <- fill buffer (Z.to_nat offset) (firstn k (skipn (Z.to_nat offset) D));
        if zlen (firstn k (skipn (Z.to_nat offset) D)) =? 0 then Ok (buffer, offset, Some true, (skipn k (skipn (Z.to_nat offset) D), sched'))
        else if offset =? BUFFER_LEN then Ok (buffer, offset, Some false, (skipn k (skipn (Z.to_nat offset) D), sched'))
        else read_loop g buffer (offset + zlen (firstn k (skipn (Z.to_nat offset) D))) (skipn k (skipn (Z.to_nat offset) D), sched'))
       = Ok (buffer', Z.min 4096 (zlen D), Some true, f') /\
    length buffer' = Z.to_nat 4096 /\ firstn (Z.to_nat (Z.min 4096 (zlen D))) buffer' = firstn (Z.to_nat (Z.min 4096 (zlen D))) D).
  { intros k sched' Lk NE' Rest K0. set (chunk := firstn k (skipn (Z.to_nat offset) D)) in *.
    assert (LC : length chunk = Nat.min k (length D - Z.to_nat offset)) by (unfold chunk; rewrite firstn_length, skipn_length; auto).
    destruct (fill_ok chunk buffer (Z.to_nat offset)) as (b1 & -> & E1); [unfold req in Lk; lia|]. cbn [bind].
    assert (LB1 : length b1 = Z.to_nat 4096) by (rewrite E1, !app_length, firstn_length, skipn_length; unfold req in Lk; lia).
    assert (P1 : firstn (Z.to_nat offset + length chunk) b1 = firstn (Z.to_nat offset + length chunk) D).
    { rewrite E1, P. rewrite app_assoc. rewrite firstn_app.
      assert (LP : length (firstn (Z.to_nat offset) D ++ chunk) = (Z.to_nat offset + length chunk)%nat) by (rewrite app_length, firstn_length; lia).
      rewrite <- LP, Nat.sub_diag, firstn_all. cbn. rewrite app_nil_r. rewrite LP.
      rewrite firstn_plus. f_equal.
      unfold chunk at 1. rewrite LC. symmetry. unfold chunk in LC.
      destruct (le_lt_dec k (length D - Z.to_nat offset)); [f_equal; lia|].
      rewrite !firstn_all2; rewrite ?skipn_length; auto; lia. }
    destruct (Z.eqb_spec (zlen chunk) 0) as [Z0|N0].
    - exists b1, (skipn k (skipn (Z.to_nat offset) D), sched').
      assert (EM : Z.min 4096 (zlen D) = offset).
      { destruct (Nat.eq_dec k 0) as [E0|Nk]; [specialize (K0 E0); unfold req in K0; lia|lia]. }
      rewrite EM. split; [auto|]. split; [auto|]. replace (Z.to_nat offset + length chunk)%nat with (Z.to_nat offset) in P1 by lia. auto.
    - unfold BUFFER_LEN. destruct (Z.eqb_spec offset 4096) as [->|N4]; [unfold req in Lk; lia|].
      rewrite skipn_add. replace (Z.to_nat offset + k)%nat with (Z.to_nat (offset + Z.of_nat k)) by lia.
      destruct (le_lt_dec k (length D - Z.to_nat offset)) as [Lkd|Lkd].
      + replace (offset + Z.of_nat k) with (offset + zlen chunk) by lia. apply Rest; auto; try (unfold req in Lk; lia).
        replace (Z.to_nat (offset + zlen chunk)) with (Z.to_nat offset + length chunk)%nat by lia. auto.
      + replace (skipn (Z.to_nat (offset + Z.of_nat k)) D) with (skipn (Z.to_nat (offset + zlen chunk)) D) by (rewrite !skipn_all2; auto; lia).
        apply Rest; auto; try (unfold req in Lk; lia).
        replace (Z.to_nat (offset + zlen chunk)) with (Z.to_nat offset + length chunk)%nat by lia. auto. }
  destruct sched as [|[n| |] sched]; cbn [kread].
  - (* the rest at once *)
    destruct g as [|g]; [cbn in F; lia|].
    destruct (Step req []) as (b' & f' & E & H1 & H2); auto; [|exists b', f'; split; [exact E|auto]].
    intros buffer0 offset' Eo Lo LB0 O1' O2' P0.
    rewrite firstn_length, skipn_length in Eo.
    cbn [read_loop kread]. set (req' := Z.to_nat (BUFFER_LEN - offset')). unfold BUFFER_LEN in req'.
    assert (EN : firstn req' (skipn (Z.to_nat offset') D) = []).
    { apply length_zero_iff_nil. rewrite firstn_length, skipn_length. unfold req', req in *. lia. }
    rewrite EN. cbn [fill bind length Z.of_nat Z.eqb]. exists buffer0. eexists. split.
    + replace offset' with (Z.min 4096 (zlen D)) by (unfold req in *; lia). reflexivity.
    + replace (Z.min 4096 (zlen D)) with offset' by (unfold req in *; lia). auto.
  - destruct (Step (Nat.min req (S n)) sched) as (b' & f' & E & H1 & H2); try lia.
    { intros J. apply NE. right. auto. }
    { intros buffer0 offset' Eo Lo LB0 O1' O2' P0. apply IH; auto; try lia. { intros J. apply NE. right. auto. } cbn [length] in F. lia. }
    exists b', f'; split; [exact E|auto].
  - destruct (IH buffer offset sched) as (b' & f' & E & H1 & H2); auto. { intros J. apply NE. right. auto. } { cbn [length] in F. lia. }
    exists b', f'; split; [exact E|auto].
  - elim NE. left. auto.
Qed.

(** the scan *)
Fixpoint scan_spec (ents : list entry) (a : auxv) : auxv :=
  match ents with
  | [] => a
  | (t, v) :: r =>
    scan_spec r (if t =? AT_SYSINFO_EHDR then mkAuxv (av_parsed a) v (av_pagesz a) else if t =? AT_PAGESZ then mkAuxv (av_parsed a) (av_ehdr a) (u32 (s32 v)) else a)
  end.
Lemma word_ok b i v r : 0 <= v < two64 -> skipn i b = enc 8 v ++ r -> word b i = Ok v.
Proof.
  intros V E. unfold word. assert (L := f_equal (@length Z) E). rewrite skipn_length, app_length, enc_length in L.
  destruct (Nat.leb_spec (i + 8) (length b)); [|lia]. rewrite E, firstn_app, enc_length, Nat.sub_diag, firstn_O, app_nil_r.
  rewrite firstn_all2 by (rewrite enc_length; auto). rewrite le_enc; [auto|]. exact V.
Qed.
Lemma scan_ok : forall ents fuel buffer i a r, Forall wf_entry ents -> skipn i buffer = flat_map enc_entry ents ++ enc 8 0 ++ r -> (length ents < fuel)%nat ->
  scan fuel buffer i a = Ok (scan_spec ents a).
Proof.
  induction ents as [|[t v] ents IH]; intros fuel buffer i a r W E F; (destruct fuel as [|g]; [cbn in F; lia|]); cbn [scan].
  - cbn [flat_map app] in E. rewrite (word_ok buffer i 0 r); [reflexivity|unfold two64; lia|exact E].
  - inversion W as [|? ? [Ht Hv] W']; subst. cbn [fst snd] in *. cbn [flat_map] in E. unfold enc_entry in E at 1. cbn [fst snd] in E. rewrite <- !app_assoc in E.
    rewrite (word_ok buffer i t _ ltac:(lia) E). cbn [bind].
    assert (E8 : skipn (i + 8) buffer = enc 8 v ++ flat_map enc_entry ents ++ enc 8 0 ++ r).
    { rewrite <- skipn_add, E. rewrite skipn_app, enc_length, Nat.sub_diag. rewrite skipn_all2 by (rewrite enc_length; lia). reflexivity. }
    assert (E16 : skipn (i + 16) buffer = flat_map enc_entry ents ++ enc 8 0 ++ r).
    { replace (i + 16)%nat with (i + 8 + 8)%nat by lia. rewrite <- skipn_add, E8. rewrite skipn_app, enc_length, Nat.sub_diag. rewrite skipn_all2 by (rewrite enc_length; lia). reflexivity. }
    unfold AT_NULL. destruct (Z.eqb_spec t 0); [lia|]. cbn [scan_spec length] in *.
    destruct (t =? AT_SYSINFO_EHDR); [|destruct (t =? AT_PAGESZ)]; rewrite ?(word_ok buffer (i + 8) v _ Hv E8); cbn [bind]; eapply IH; eauto; lia.
Qed.
Lemma parse_ok ents data sched buffer a : auxv_content ents data -> no_error sched -> length buffer = Z.to_nat 4096 -> av_parsed a = 0 ->
  parse_auxv_contents (Some (data, sched)) buffer a = Ok (scan_spec ents (mkAuxv 1 (av_ehdr a) (av_pagesz a)), 0).
Proof.
  intros (W & (rest & ->) & L) NE LB A0. unfold parse_auxv_contents. rewrite A0. cbn [Z.eqb negb snd]. cbn [parse_loop].
  set (D := flat_map enc_entry ents ++ enc 8 0 ++ rest) in *.
  assert (LD : (16 * length ents + 8 <= length D)%nat) by (unfold D; rewrite !app_length, flat_length, enc_length; lia).
  destruct (read_loop_ok D (S (S (S (length sched)))) buffer 0 sched) as (b' & f' & E & LB' & P); auto; try lia.
  cbn [Z.to_nat skipn snd] in *. rewrite E. cbn [bind].
  set (K := (16 * length ents + 8)%nat).
  assert (LK : (K <= Z.to_nat (Z.min 4096 (zlen D)))%nat) by (unfold K; lia).
  assert (PK : firstn K b' = flat_map enc_entry ents ++ enc 8 0).
  { transitivity (firstn K D).
    - apply (f_equal (firstn K)) in P. rewrite !firstn_firstn in P. rewrite !Nat.min_l in P by auto. auto.
    - unfold D. rewrite app_assoc, firstn_app. rewrite app_length, flat_length, enc_length. fold K. rewrite Nat.sub_diag, firstn_O, app_nil_r.
      apply firstn_all2. rewrite app_length, flat_length, enc_length. auto. }
  rewrite (scan_ok ents _ b' 0 _ (skipn K b')).
  - reflexivity.
  - auto.
  - cbn [skipn]. rewrite <- (firstn_skipn K b') at 1. rewrite PK, <- app_assoc. reflexivity.
  - rewrite LB'. lia.
Qed.
(** the page size found *)
Lemma scan_pagesz_none ents : forall a, (forall v, ~ In (AT_PAGESZ, v) ents) -> av_pagesz (scan_spec ents a) = av_pagesz a.
Proof.
  induction ents as [|[t v] ents IH]; intros a N; cbn [scan_spec]; [auto|]. rewrite IH by (intros w J; apply (N w); right; auto).
  destruct (t =? AT_SYSINFO_EHDR); [auto|]. destruct (Z.eqb_spec t AT_PAGESZ) as [->|]; [|auto]. elim (N v). left. auto.
Qed.
Lemma scan_pagesz_last l1 v l2 : forall a, (forall w, ~ In (AT_PAGESZ, w) l2) -> av_pagesz (scan_spec (l1 ++ (AT_PAGESZ, v) :: l2) a) = u32 (s32 v).
Proof.
  induction l1 as [|[t w] l1 IH]; intros a N; cbn [app scan_spec].
  - rewrite scan_pagesz_none by auto. reflexivity.
  - apply IH. auto.
Qed.
Lemma scan_parsed ents : forall a, av_parsed (scan_spec ents a) = av_parsed a.
Proof.
  induction ents as [|[t v] ents IH]; intros a; cbn [scan_spec]; [auto|]. rewrite IH. destruct (t =? AT_SYSINFO_EHDR); [auto|]. destruct (t =? AT_PAGESZ); auto.
Qed.
Lemma scan_ehdr_none ents : forall a, (forall v, ~ In (AT_SYSINFO_EHDR, v) ents) -> av_ehdr (scan_spec ents a) = av_ehdr a.
Proof.
  induction ents as [|[t v] ents IH]; intros a N; cbn [scan_spec]; [auto|]. rewrite IH by (intros w J; apply (N w); right; auto).
  destruct (Z.eqb_spec t AT_SYSINFO_EHDR) as [->|]; [elim (N v); left; auto|]. destruct (t =? AT_PAGESZ); auto.
Qed.
Lemma scan_ehdr_last l1 v l2 : forall a, (forall w, ~ In (AT_SYSINFO_EHDR, w) l2) -> av_ehdr (scan_spec (l1 ++ (AT_SYSINFO_EHDR, v) :: l2) a) = v.
Proof.
  induction l1 as [|[t w] l1 IH]; intros a N; cbn [app scan_spec].
  - rewrite scan_ehdr_none by auto. reflexivity.
  - apply IH. auto.
Qed.
Lemma u32_s32 v : 0 <= v < two32 -> u32 (s32 v) = v.
Proof.
  unfold u32, s32, two32. intros H. cbv zeta. rewrite (Z.mod_small v) by lia. destruct (Z.ltb_spec v 2147483648).
  - apply Z.mod_small. lia.
  - replace (v - 4294967296) with (v + (-1) * 4294967296) by lia. rewrite Z_mod_plus by lia. apply Z.mod_small. lia.
Qed.
(** an error before the end *)
Lemma read_loop_err D post : forall pre fuel buffer offset, no_error pre -> length buffer = Z.to_nat 4096 -> 0 <= offset ->
  offset + Z.of_nat (given pre) < Z.min 4096 (zlen D) -> (length pre < fuel)%nat ->
  exists buffer' o' f', read_loop fuel buffer offset (skipn (Z.to_nat offset) D, pre ++ RErr :: post) = Ok (buffer', o', None, f').
Proof.
  induction pre as [|r pre IH]; intros fuel buffer offset NE LB O1 G F; (destruct fuel as [|g]; [cbn in F; lia|]); cbn [app read_loop kread].
  - do 3 eexists. reflexivity.
  - assert (NE' : no_error pre) by (intros J; apply NE; right; auto). cbn [given length] in *. destruct r as [n| |]; [| |elim NE; left; auto].
    + unfold BUFFER_LEN. replace (Nat.min (Z.to_nat (4096 - offset)) (S n)) with (S n) by lia.
      assert (LC : length (firstn (S n) (skipn (Z.to_nat offset) D)) = S n) by (rewrite firstn_length, skipn_length; lia).
      destruct (fill_ok (firstn (S n) (skipn (Z.to_nat offset) D)) buffer (Z.to_nat offset)) as (b1 & -> & E1); [lia|]. cbn [bind].
      rewrite LC. destruct (Z.eqb_spec (Z.of_nat (S n)) 0); [lia|]. destruct (Z.eqb_spec offset 4096); [lia|].
      rewrite skipn_add. replace (Z.to_nat offset + S n)%nat with (Z.to_nat (offset + Z.of_nat (S n))) by lia.
      apply IH; auto; try lia. rewrite E1, !app_length, firstn_length, skipn_length, LC. lia.
    + apply IH; auto; lia.
Qed.
Lemma pagesize_same : forall l a p, p <> 0 -> pagesize_calls l (a, p) = Ok (map (fun _ => p) l).
Proof.
  induction l as [|[f b] l IH]; intros a p N; [reflexivity|]. cbn [pagesize_calls gotcha_getpagesize map]. destruct (Z.eqb_spec p 0); [lia|]. cbn [negb bind].
  rewrite IH by auto. reflexivity.
Qed.
