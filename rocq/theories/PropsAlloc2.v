(** Requests of more than 2^63 bytes: what the internal allocator does where C49 and C50 fail. *)
From Verif Require Import Base ListFacts AllocModel SpecAlloc AllocProofs AllocProofs2 PropsAlloc.

Lemma best_fit_kept m n (S : list Z) : forall fuel fr prev cur best res, chain m cur fr -> (forall c, In c fr -> okc c /\ In (fst c) S) ->
  (exists p b d, best = Some (p, b, d) /\ In b S) -> best_fit fuel m n prev cur best = Ok res -> exists p b d, res = Some (p, b, d) /\ In b S.
Proof.
  induction fuel as [|f IH]; intros fr prev cur best res C F B E; cbn [best_fit] in E; [discriminate E|]. destruct fr as [|c fr]; cbn [chain] in C.
  - subst cur. cbn in E. injection E as <-. exact B.
  - destruct C as (-> & nx & Hn & C). destruct (F c (or_introl eq_refl)) as ((O1 & O2 & O3 & O4 & O5) & Ic). unfold AllocProofs.ends in O5.
    destruct (Z.eqb_spec (fst c) 0); [lia|]. destruct (ldw m (fst c)) as [sz|]; cbn [bind] in E; [|discriminate E].
    assert (En : ldw m (u64 (fst c + 8)) = Ok nx) by (rewrite u64_small by (unfold two64; lia); unfold ldw; rewrite Hn; auto).
    assert (F' : forall d, In d fr -> okc d /\ In (fst d) S) by (intros d J; apply F; right; auto).
    destruct ((0 <=? s64 (sz - n)) && _); [destruct (s64 (sz - n) =? 0); [injection E as <-; exists prev, (fst c), (s64 (sz - n)); auto|]|]; rewrite En in E; cbn [bind] in E; [|exact (IH fr _ _ _ _ C F' B E)].
    refine (IH fr _ _ _ _ C F' _ E). exists prev, (fst c), (s64 (sz - n)). auto.
Qed.
Lemma best_fit_first m n : forall fuel fr c nx res, m (fst c) = Some (snd c) -> m (fst c + 8) = Some nx -> chain m nx fr -> (forall d, In d (c :: fr) -> okc d) -> 0 <= s64 (snd c - n) ->
  best_fit fuel m n 0 (fst c) None = Ok res -> exists p b d, res = Some (p, b, d) /\ In b (map fst (c :: fr)).
Proof.
  intros fuel fr c nx res Hs Hn C F D E. destruct fuel as [|f]; cbn [best_fit] in E; [discriminate E|]. destruct (F c (or_introl eq_refl)) as (O1 & O2 & O3 & O4 & O5). unfold AllocProofs.ends in O5.
  destruct (Z.eqb_spec (fst c) 0); [lia|]. unfold ldw at 1 in E. rewrite Hs in E. cbn [bind] in E. replace (0 <=? s64 (snd c - n)) with true in E by lia. cbn [andb] in E.
  destruct (s64 (snd c - n) =? 0); [injection E as <-; exists 0, (fst c), (s64 (snd c - n)); split; [auto|left; auto]|].
  unfold ldw in E at 1. rewrite u64_small in E by (unfold two64; lia). rewrite Hn in E. cbn [bind] in E. eapply (best_fit_kept m n (map fst (c :: fr)) f fr); eauto.
  - intros d J. split; [apply F; right; auto|]. apply in_map. right. auto.
  - exists 0, (fst c), (s64 (snd c - n)). split; [auto|left; auto].
Qed.

(** If the free list is not empty, a request that exceeds 2^63 by more than the size of its first element is never
    refused: gotcha_malloc either accesses memory it should not, or hands out an element of the free list, which is
    smaller than what was requested.  (The difference of the sizes is taken for a signed number, so a huge request
    seems to fit.) *)
Theorem C49_huge_law : forall pagesz m0 os h l e els sz kernel size, page_ok pagesz -> runs pagesz (heap0 m0) [] os h l ->
  free_elements (h_mem h) (h_free h) (e :: els) -> h_mem h e = Some sz -> 2 ^ 63 + sz < size < 2 ^ 64 ->
  forall h' r, gotcha_malloc pagesz kernel h size = Ok (h', r) ->
  r <> 0 /\ exists b n, In b (e :: els) /\ r = b + 8 /\ h_mem h b = Some n /\ n < size.
Proof.
  change (2 ^ 63) with 9223372036854775808. change (2 ^ 64) with 18446744073709551616.
  intros pagesz m0 os h l e els sz kernel size Pg R Fe Hsz Hs h' r E. destruct (runs_inv _ _ Pg _ _ _ _ _ R (inv0 m0)) as (fr & us & (C & M & Ch & L & I) & _ & _).
  assert (Oc : forall c, In c fr -> okc c) by (intros c J; eapply chunks_in; eauto; apply in_app_iff; auto).
  assert (Ef : e :: els = map fst fr) by (eapply free_elements_fun; eauto; apply chain_elements; auto). rewrite Ef. clear Fe.
  destruct fr as [|c fr]; [discriminate Ef|]. cbn [map] in Ef. injection Ef as -> ->. destruct Ch as (Hf & nx & Hn & Ch).
  assert (Mc : forall d, In d (c :: fr) -> h_mem h (fst d) = Some (snd d)) by (intros d J; apply M; apply in_app_iff; auto).
  assert (Es : snd c = sz) by (pose proof (Mc c (or_introl eq_refl)); congruence). destruct (Oc c (or_introl eq_refl)) as (O1 & O2 & O3 & O4 & O5). unfold AllocProofs.ends in O5.
  unfold gotcha_malloc in E. set (n := round_size size) in *.
  assert (Hd : 0 <= s64 (snd c - n)).
  { assert (Hn' : n = 0 \/ size <= n < 18446744073709551616).
    { unfold n, round_size, MIN_SIZE, LINK_SIZE, HEADER_SIZE. destruct (Z.ltb_spec size (16 - 8)); [lia|]. destruct (Z.eqb_spec (size mod 8) 0); [lia|].
      pose proof (Z.mod_pos_bound size 8 ltac:(lia)). unfold u64, two64. destruct (Z_lt_ge_dec (size + (8 - size mod 8)) 18446744073709551616); [right; rewrite Z.mod_small by lia; lia|].
      left. assert (Q : size + (8 - size mod 8) = 18446744073709551616).
      { pose proof (Z.div_mod size 8 ltac:(lia)). assert (size / 8 < 2305843009213693952) by (apply Z.div_lt_upper_bound; lia). lia. }
      rewrite Q. reflexivity. }
    rewrite Es. destruct Hn' as [->|Hn']; [rewrite s64_small by lia; lia|].
    assert (X : s64 (sz - n) = s64 (sz - n + 18446744073709551616)); [|rewrite X, s64_small by lia; lia].
    unfold s64, u64, two64. replace (sz - n + 18446744073709551616) with (sz - n + 1 * 18446744073709551616) by lia. now rewrite Z_mod_plus_full. }
  destruct (best_fit (S (h_pushes h)) (h_mem h) n 0 (h_free h) None) as [fit|] eqn:Eb; cbn [bind] in E; [|discriminate E]. rewrite Hf in Eb.
  destruct (best_fit_first (h_mem h) n _ fr c nx fit (Mc c (or_introl eq_refl)) Hn Ch Oc Hd Eb) as (p & b & d & -> & Ib).
  assert (Er : r = u64 (b + 8)).
  { destruct (ldw (h_mem h) (u64 (b + 8))) as [next|]; cbn [bind] in E; [|discriminate E].
    match type of E with (do h0 <- ?x; _) = _ => destruct x as [h1|]; cbn [bind] in E; [|discriminate E] end.
    destruct (split_allocation h1 b n) as [h2|]; cbn [bind] in E; [|discriminate E]. injection E as _ <-. reflexivity. }
  change (fst c :: map fst fr) with (map fst (c :: fr)). apply in_map_iff in Ib as (q & <- & Iq). destruct (Oc q Iq) as (Q1 & Q2 & Q3 & Q4 & Q5). unfold AllocProofs.ends in Q5.
  rewrite u64_small in Er by (unfold two64; lia). split; [lia|]. exists (fst q), (snd q). split; [apply in_map; auto|]. split; [auto|]. split; [apply Mc; auto|]. lia.
Qed.
Print Assumptions C49_huge_law.

(** a case: after one small request the free list has one element of 32688 bytes; a request of 2^64 - 64 bytes gets it *)
Definition one_block : list op := [Malloc (big 32768) 64].
Definition one_block_heap : heap := heap_of (run_op 4096 (heap0 m00) (Malloc (big 32768) 64)).
Example C49_huge_ex : runs 4096 (heap0 m00) [] one_block one_block_heap [(65544, 64)] /\ free_elements (h_mem one_block_heap) (h_free one_block_heap) [65608] /\
  h_mem one_block_heap 65608 = Some 32688 /\ 2 ^ 63 + 32688 < 2 ^ 64 - 64 < 2 ^ 64 /\
  exists h', gotcha_malloc 4096 (fun _ => None) one_block_heap (2 ^ 64 - 64) = Ok (h', 65616).
Proof.
  split; [|split; [|split; [|split]]].
  - unfold one_block_heap, one_block. eapply RCons; [split; [unfold MAX_REQUEST; lia|apply big_ok; [lia|]]|apply (results_ok _ 65544); vm_compute; reflexivity|cbv beta iota delta [after Z.eqb Pos.eqb]; apply RNil].
    intros a Ha. cbn [h_mem heap0]. unfold m00. destruct (Z.eqb_spec a 4096); [lia|auto].
  - assert (H : h_free one_block_heap = 65608) by (vm_compute; reflexivity). rewrite H. apply (FCons _ 65608 0); [lia|vm_compute; reflexivity|constructor].
  - vm_compute. reflexivity.
  - lia.
  - eexists. apply results_ok. vm_compute. reflexivity.
Qed.

Lemma best_fit_prev m n (S : list Z) : forall fuel fr prev cur best p b d, chain m cur fr -> (forall c, In c fr -> okc c /\ In (fst c) S) ->
  (prev = 0 \/ In prev S) -> (forall p b d, best = Some (p, b, d) -> p = 0 \/ In p S) -> best_fit fuel m n prev cur best = Ok (Some (p, b, d)) -> p = 0 \/ In p S.
Proof.
  induction fuel as [|f IH]; intros fr prev cur best p b d C F P B E; cbn [best_fit] in E; [discriminate E|]. destruct fr as [|c fr]; cbn [chain] in C.
  - subst cur. cbn in E. injection E as E. eapply B; exact E.
  - destruct C as (-> & nx & Hn & C). destruct (F c (or_introl eq_refl)) as ((O1 & O2 & O3 & O4 & O5) & Ic). unfold AllocProofs.ends in O5.
    destruct (Z.eqb_spec (fst c) 0); [lia|]. destruct (ldw m (fst c)) as [sz|]; cbn [bind] in E; [|discriminate E].
    assert (En : ldw m (u64 (fst c + 8)) = Ok nx) by (rewrite u64_small by (unfold two64; lia); unfold ldw; rewrite Hn; auto).
    assert (F' : forall d, In d fr -> okc d /\ In (fst d) S) by (intros x J; apply F; right; auto).
    destruct ((0 <=? s64 (sz - n)) && _); [destruct (s64 (sz - n) =? 0); [injection E as <- _ _; exact P|]|]; rewrite En in E; cbn [bind] in E; (eapply (IH fr); [exact C|exact F'|right; exact Ic| |exact E]); [|exact B].
    intros p' b' d' X. injection X as <- _ _. exact P.
Qed.
Lemma chain_next m : forall fr cur x, chain m cur fr -> In x fr -> exists v, m (fst x + 8) = Some v /\ (v = 0 \/ In v (map fst fr)).
Proof.
  induction fr as [|c fr IH]; intros cur x C J; [destruct J|]. cbn [chain] in C. destruct C as (-> & nx & Hn & C). destruct J as [->|J].
  - exists nx. split; [exact Hn|]. destruct fr as [|y fr]; cbn [chain] in C; [left; exact C|]. right. right. left. symmetry. apply C.
  - destruct (IH nx x C J) as (v & Hv & [V|V]); exists v; split; auto. right. right. exact V.
Qed.
Lemma chunks_far fr us x y : chunks_ok (fr ++ us) -> In x fr -> In y fr -> x = y \/ disj x y.
Proof.
  intros C J K. apply in_split in J as (l1 & l2 & ->). rewrite <- app_assoc in C. cbn [app] in C. apply in_app_iff in K as [K|[K|K]]; [|left; auto|]; right; (eapply chunks_disj; [exact C|]); rewrite !in_app_iff; auto.
Qed.

(** What such a request does to the contents of the heap: a request of 2^64 - k bytes that gets the element at [b] puts a new
    element of the free list [k] bytes (rounded down to a multiple of 8) before the block handed out, and overwrites the
    two words there, whatever they are: words of a live block, a header, or memory that is not the allocator's. *)
Theorem C50_huge_law : forall pagesz m0 os h l e els sz kernel k, page_ok pagesz -> runs pagesz (heap0 m0) [] os h l ->
  free_elements (h_mem h) (h_free h) (e :: els) -> h_mem h e = Some sz -> 16 < k < 2 ^ 63 - sz ->
  forall h' r, gotcha_malloc pagesz kernel h (2 ^ 64 - k) = Ok (h', r) ->
  exists b n, In b (e :: els) /\ r = b + 8 /\ h_mem h b = Some n /\
  let a := u64 (r - 8 * (k / 8)) in
  h_free h' = a /\ h_mem h' a = Some (n + 8 * (k / 8) - 8) /\ exists v, h_mem h' (u64 (a + 8)) = Some v /\ (v = 0 \/ In v (e :: els)).
Proof.
  change (2 ^ 63) with 9223372036854775808. change (2 ^ 64) with 18446744073709551616.
  intros pagesz m0 os h l e els sz kernel k Pg R Fe Hsz Hk h' r E. destruct (runs_inv _ _ Pg _ _ _ _ _ R (inv0 m0)) as (fr & us & (C & M & Ch & L & I) & _ & _).
  assert (Oc : forall c, In c fr -> okc c) by (intros c J; eapply chunks_in; eauto; apply in_app_iff; auto).
  assert (Ef : e :: els = map fst fr) by (eapply free_elements_fun; eauto; apply chain_elements; auto). rewrite Ef. clear Fe.
  destruct fr as [|c fr]; [discriminate Ef|]. cbn [map] in Ef. injection Ef as -> ->. pose proof Ch as Ch0. destruct Ch as (Hf & nx & Hn & Ch).
  assert (Mc : forall d, In d (c :: fr) -> h_mem h (fst d) = Some (snd d)) by (intros d J; apply M; apply in_app_iff; auto).
  assert (Es : snd c = sz) by (pose proof (Mc c (or_introl eq_refl)); congruence). destruct (Oc c (or_introl eq_refl)) as (O1 & O2 & O3 & O4 & O5). unfold AllocProofs.ends in O5.
  set (q := 8 * (k / 8)) in *. assert (Hq : q <= k < q + 8) by (unfold q; pose proof (Z.div_mod k 8 ltac:(lia)); pose proof (Z.mod_pos_bound k 8 ltac:(lia)); lia). assert (Hq8 : q mod 8 = 0) by (unfold q; rewrite Z.mul_comm; apply Z.mod_mul; lia).
  assert (Q16 : 16 <= q) by (unfold q; pose proof (Z.div_le_mono 16 k 8 ltac:(lia) ltac:(lia)) as Q; change (16 / 8) with 2 in Q; lia).
  assert (Er : round_size (18446744073709551616 - k) = 18446744073709551616 - q).
  { unfold round_size, MIN_SIZE, LINK_SIZE, HEADER_SIZE. destruct (Z.ltb_spec (18446744073709551616 - k) (16 - 8)); [lia|].
    assert (Em : (18446744073709551616 - k) mod 8 = (8 - (k - q)) mod 8).
    { replace (18446744073709551616 - k) with (8 - (k - q) + (2305843009213693951 - k / 8) * 8) by (unfold q; lia). apply Z_mod_plus_full. }
    destruct (Z.eqb_spec ((18446744073709551616 - k) mod 8) 0) as [Z0|N0].
    - destruct (Z.eq_dec k q); [lia|]. rewrite Em, Z.mod_small in Z0 by lia. lia.
    - destruct (Z.eq_dec k q) as [K|K]; [exfalso; apply N0; rewrite Em, K, Z.sub_diag; reflexivity|]. rewrite Em, Z.mod_small by lia. rewrite u64_small by (unfold two64; lia). lia. }
  unfold gotcha_malloc in E. rewrite Er in E. set (n := 18446744073709551616 - q) in *.
  assert (Hd : 0 <= s64 (snd c - n)).
  { rewrite Es. assert (X : s64 (sz - n) = s64 (sz + q)); [|rewrite X, s64_small by lia; lia].
    unfold s64, u64, two64, n. replace (sz - (18446744073709551616 - q)) with (sz + q + (-1) * 18446744073709551616) by lia. now rewrite Z_mod_plus_full. }
  destruct (best_fit (S (h_pushes h)) (h_mem h) n 0 (h_free h) None) as [fit|] eqn:Eb; cbn [bind] in E; [|discriminate E]. rewrite Hf in Eb.
  destruct (best_fit_first (h_mem h) n _ fr c nx fit (Mc c (or_introl eq_refl)) Hn Ch Oc Hd Eb) as (p & b & d & -> & Ib).
  assert (Ip : p = 0 \/ In p (map fst (c :: fr))).
  { eapply (best_fit_prev (h_mem h) n (map fst (c :: fr)) (S (h_pushes h)) (c :: fr) 0 (fst c) None); [rewrite Hf in Ch0; exact Ch0| |left; reflexivity|intros ? ? ? Y; discriminate Y|exact Eb]. intros x J. split; [auto|apply in_map; exact J]. }
  apply in_map_iff in Ib as (x & <- & Ix). destruct (Oc x Ix) as (X1 & X2 & X3 & X4 & X5). unfold AllocProofs.ends in X5.
  destruct (chain_next _ _ _ _ Ch0 Ix) as (v & Hv & Iv). unfold ldw at 1 in E. rewrite (u64_small (fst x + 8)) in E by (unfold two64; lia). rewrite Hv in E. cbn [bind] in E.
  match type of E with (do h0 <- ?y; _) = _ => destruct y as [h1|] eqn:E1; cbn [bind] in E; [|discriminate E] end.
  assert (H1 : h_mem h1 (fst x) = Some (snd x) /\ (h_free h1 = 0 \/ In (h_free h1) (map fst (c :: fr)))).
  { destruct (Z.eqb_spec p 0) as [P0|P0]; cbn [negb] in E1; [injection E1 as <-; cbn [h_mem h_free]; split; [apply Mc; exact Ix|exact Iv]|].
    destruct (stw (h_mem h) (u64 (p + 8)) v) as [m1|] eqn:Em; cbn [bind] in E1; [|discriminate E1]. injection E1 as <-. cbn [h_mem h_free]. split; [|right; rewrite Hf; left; reflexivity].
    unfold stw in Em. destruct (ldw _ _); cbn [bind] in Em; [|discriminate Em]. injection Em as <-. rewrite set_word_neq; [apply Mc; exact Ix|].
    destruct Ip as [Ip|Ip]; [contradiction|]. apply in_map_iff in Ip as (y & <- & Iy). destruct (Oc y Iy) as (Y1 & Y2 & Y3 & Y4 & Y5). unfold AllocProofs.ends in Y5. rewrite u64_small by (unfold two64; lia).
    intros X. destruct (chunks_far (c :: fr) us x y C Ix Iy) as [<-|D]; [lia|]. unfold disj, AllocProofs.ends in D. lia. }
  destruct H1 as [H1 Hfree]. destruct (split_allocation h1 (fst x) n) as [h2|] eqn:E2; cbn [bind] in E; [|discriminate E]. injection E as <- <-.
  exists (fst x), (snd x). split; [apply in_map; exact Ix|]. split; [reflexivity|]. split; [apply Mc; exact Ix|]. cbn zeta.
  unfold split_allocation, ldw in E2. rewrite H1 in E2. cbn [bind] in E2.
  assert (Eu : u64 (snd x - n) = snd x + q).
  { unfold u64, two64, n. replace (snd x - (18446744073709551616 - q)) with (snd x + q + (-1) * 18446744073709551616) by lia. rewrite Z_mod_plus_full. apply Z.mod_small. lia. }
  assert (Ea : u64 (fst x + 8 + n) = u64 (fst x + 8 - q)).
  { unfold u64, two64, n. replace (fst x + 8 + (18446744073709551616 - q)) with (fst x + 8 - q + 1 * 18446744073709551616) by lia. apply Z_mod_plus_full. }
  rewrite Eu, Ea in E2. unfold LINK_SIZE, HEADER_SIZE in E2. destruct (Z.leb_spec (snd x + q) 16); [lia|]. rewrite (u64_small (snd x + q - 8)) in E2 by (unfold two64; lia). set (a := u64 (fst x + 8 - q)) in *.
  unfold stw in E2. repeat (match type of E2 with context [ldw ?m ?z] => destruct (ldw m z); cbn [bind] in E2; [|discriminate E2] end). injection E2 as <-. cbn [h_free h_mem].
  split; [reflexivity|]. split; [|exists (h_free h1); split; [apply set_word_eq|exact Hfree]]. rewrite set_word_neq; [apply set_word_eq|].
  assert (Ra : 0 <= a < 18446744073709551616) by (apply Z.mod_pos_bound; lia). unfold u64, two64. destruct (Z_lt_ge_dec (a + 8) 18446744073709551616) as [Y|Y]; [rewrite Z.mod_small by lia; lia|].
  replace (a + 8) with (a + 8 - 18446744073709551616 + 1 * 18446744073709551616) by lia. rewrite Z_mod_plus_full, Z.mod_small by lia. lia.
Qed.
Print Assumptions C50_huge_law.
(** a case: in the heap of [C50_huge_refuted], with two live blocks, the request lands in the second *)
Example C50_huge_ex : h_mem two_blocks_heap 65632 = Some 5 /\ free_elements (h_mem two_blocks_heap) (h_free two_blocks_heap) [65680] /\ 16 < 64 < 2 ^ 63 - 32616 /\ h_mem two_blocks_heap 65680 = Some 32616 /\
  (exists h', gotcha_malloc 4096 (fun _ => None) two_blocks_heap (2 ^ 64 - 64) = Ok (h', 65688)) /\ word_inside (65616, 64) (u64 (65688 - 8 * (64 / 8))).
Proof.
  split; [vm_compute; reflexivity|]. split.
  - assert (H : h_free two_blocks_heap = 65680) by (vm_compute; reflexivity). rewrite H. apply (FCons _ 65680 0); [lia|vm_compute; reflexivity|constructor].
  - split; [lia|]. split; [vm_compute; reflexivity|]. split; [eexists; apply results_ok; vm_compute; reflexivity|]. exists 65624. vm_compute. repeat split; discriminate.
Qed.
