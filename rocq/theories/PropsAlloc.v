(** The internal allocator: properties C49, C50 and C58. *)
From Verif Require Import Base ListFacts AllocModel SpecAlloc AllocProofs AllocProofs2.

(** *** C49
    Partial: [valid] restricts the sizes requested to at most [MAX_REQUEST]; the property is about all sizes, and
    [C49_huge_refuted] shows it fails near 2^64. *)
(** No call of a valid history faults: the allocator accesses mapped memory only and its loops end. *)
Theorem C49_no_fault_partial : forall pagesz m0 os h l o, page_ok pagesz -> runs pagesz (heap0 m0) [] os h l -> valid h l o -> exists h' r, run_op pagesz h o = Ok (h', r).
Proof.
  intros pagesz m0 os h l o Pg R V. destruct (step_ok pagesz m0 h l o Pg (runs_inv _ _ Pg _ _ _ _ _ R (inv0 m0)) V) as (h' & r & E & _). eauto.
Qed.
Print Assumptions C49_no_fault_partial.
(** After every history the blocks handed out and not freed have different addresses, are aligned, lie in memory
    obtained from mmap, have no word in common with each other, with their headers or with the elements of the free
    list, nor with any memory the process had before; and that memory is unchanged. *)
Theorem C49_blocks_partial : forall pagesz m0 os h l, page_ok pagesz -> runs pagesz (heap0 m0) [] os h l ->
  NoDup (map fst l) /\
  (forall b, In b l -> fst b <> 0 /\ fst b mod 8 = 0 /\ exists r len, In (r, len) (h_maps h) /\ r <= fst b - 8 /\ fst b + snd b <= r + len) /\
  (forall b c, In b l -> In c l -> fst b <> fst c -> apart b c) /\
  (forall b c, In b l -> In c l -> ~ word_inside c (header b)) /\
  (exists els, free_elements (h_mem h) (h_free h) els) /\
  (forall els e b, free_elements (h_mem h) (h_free h) els -> In e els -> In b l -> ~ word_inside b e /\ ~ word_inside b (e + 8)) /\
  (forall a, m0 a <> None -> h_mem h a = m0 a /\ forall b, In b l -> a mod 8 = 0 -> ~ word_inside b a).
Proof.
  intros pagesz m0 os h l Pg R. destruct (runs_inv _ _ Pg _ _ _ _ _ R (inv0 m0)) as (fr & us & (C & M & Ch & L & I) & F & Bs).
  assert (Oc : forall c, In c (fr ++ us) -> okc c) by (intros; eapply chunks_in; eauto).
  assert (Ou : forall c, In c us -> okc c) by (intros; apply Oc; apply in_app_iff; auto).
  assert (Hd : forall d b, In d (fr ++ us) -> In b l -> ~ word_inside b (fst d)).
  { intros d b Jd Jb W. destruct (Oc d Jd) as (O1 & O2 & O3 & O4 & O5). destruct (back_in _ _ _ F Jb) as (c & Jc & Bc).
    assert (Jc' : In c (fr ++ us)) by (apply in_app_iff; auto). destruct (word_in c b (fst d) (Ou c Jc) Bc W O2) as [W1 W2]. destruct (Oc c Jc') as (Q1 & Q2 & Q3 & _).
    apply in_split in Jc' as (l1 & l2 & E). rewrite E in *. apply in_app_iff in Jd as [Jd|[Jd|Jd]]; [|subst; lia|]; assert (Dj := chunks_disj _ _ _ d C ltac:(apply in_app_iff; auto)); unfold disj, ends in *; lia. }
  split; [|split; [|split; [|split; [|split; [|split]]]]].
  - clear - C F. revert l F C. induction us as [|c us IH]; intros l F C; inversion F as [|? b ? l' B F']; subst; [constructor|]. cbn [map].
    assert (D : forall d, In d us -> disj c d) by (intros d J; eapply chunks_disj; [exact C|]; apply in_app_iff; auto).
    assert (O : forall d, In d (c :: us) -> okc d) by (intros d J; eapply chunks_in; [exact C|]; apply in_app_iff; auto).
    constructor.
    + intros J. apply in_map_iff in J as (b' & E & J). destruct (back_in _ _ _ F' J) as (d & Jd & [Bd _]). destruct B as [B _]. specialize (D d Jd). destruct (O d ltac:(right; auto)) as (Q1 & Q2 & Q3 & _). destruct (O c ltac:(left; auto)) as (O1 & O2 & O3 & _). unfold disj, ends in D. lia.
    + apply (IH l' F'). destruct C as [C1 C2]. split.
      * apply Forall_app in C1 as [X Y]. inversion Y; subst. apply Forall_app; auto.
      * assert (P := fop_perm _ _ (Permutation.Permutation_sym (Permutation.Permutation_middle fr us c)) C2). inversion P; auto.
  - intros b Jb. destruct (back_in _ _ _ F Jb) as (c & Jc & Bc). destruct (Ou c Jc) as (O1 & O2 & O3 & O4 & O5). destruct Bc as [B1 B2]. split; [lia|]. split; [rewrite B1; apply mod_add; auto|].
    rewrite Forall_forall in I. destruct (I c) as (r & len & J & R1 & R2); [apply in_app_iff; auto|]. exists r, len. split; [auto|]. unfold ends in R2. lia.
  - intros b c Jb Jc N a (W1 & W2 & A). destruct (back_in _ _ _ F Jb) as (d & Jd & Bd). destruct (word_in d b a (Ou d Jd) Bd W1 A) as [W3 W4].
    assert (Nc : fst c <> fst b) by congruence. assert (X := backs_disjoint fr us l d b c a C F Jd Bd Jc Nc W2 A). unfold ends in *. lia.
  - intros b c Jb Jc. destruct (back_in _ _ _ F Jb) as (d & Jd & [Bd _]). unfold header. replace (fst b - 8) with (fst d) by lia. apply Hd; [apply in_app_iff; auto|auto].
  - exists (map fst fr). apply chain_elements; auto. intros c J. apply Oc. apply in_app_iff; auto.
  - intros els e b Fe Je Jb. rewrite (free_elements_fun _ _ _ Fe (map fst fr)) in Je by (apply chain_elements; auto; intros c J; apply Oc; apply in_app_iff; auto).
    apply in_map_iff in Je as (d & <- & Jd). split; [apply Hd; [apply in_app_iff; auto|auto]|]. intros W. destruct (back_in _ _ _ F Jb) as (c & Jc & Bc).
    destruct (Oc d) as (O1 & O2 & O3 & _); [apply in_app_iff; auto|]. destruct (word_in c b (fst d + 8) (Ou c Jc) Bc W) as [W1 W2]; [apply mod_add; auto|].
    assert (Dj : disj c d). { apply in_split in Jc as (u1 & u2 & ->). rewrite app_assoc in C. eapply chunks_disj; [exact C|]. rewrite !in_app_iff. auto. } unfold disj, ends in *. lia.
  - intros a Na. split; [apply Bs; auto|]. intros b Jb A W. destruct (back_in _ _ _ F Jb) as (c & Jc & Bc). destruct (word_in c b a (Ou c Jc) Bc W A) as [W1 W2].
    apply Na. eapply maps_none; [exact Bs| |]; [rewrite Forall_forall in I; apply (I c); apply in_app_iff; auto|lia].
Qed.
Print Assumptions C49_blocks_partial.
(** gotcha_malloc fails only if the kernel refuses memory. *)
Theorem C49_null_partial : forall pagesz m0 os h l kernel size h', page_ok pagesz -> runs pagesz (heap0 m0) [] os h l -> valid h l (Malloc kernel size) ->
  gotcha_malloc pagesz kernel h size = Ok (h', 0) -> exists len, kernel len = None.
Proof.
  intros pagesz m0 os h l kernel size h' Pg R [Hs K] E. destruct (runs_inv _ _ Pg _ _ _ _ _ R (inv0 m0)) as (fr & us & H & F & Bs).
  destruct (malloc_ok pagesz kernel h fr us size Pg H Hs K) as (h1 & r & E' & X). rewrite E in E'. inversion E'; subst.
  destruct X as [(_ & _ & _ & X)|(fr' & c & Ec & _ & (C & _) & _)]; [auto|]. exfalso. destruct (chunks_in _ c C) as (O1 & _); [rewrite in_app_iff; cbn; auto|lia].
Qed.
Print Assumptions C49_null_partial.

(** *** C50
    Partial in the same way; see [C50_huge_refuted]. *)
(** What a block contains stays until the program itself overwrites the word, or frees or reallocates the block. *)
Theorem C50_preserved_partial : forall pagesz m0 os0 h l os h' l' b a, page_ok pagesz -> runs pagesz (heap0 m0) [] os0 h l -> runs pagesz h l os h' l' ->
  In b l -> a mod 8 = 0 -> word_inside b a -> Forall (spares b a) os -> h_mem h' a = h_mem h a /\ In b l'.
Proof. intros pagesz m0 os0 h l os h' l' b a Pg R0 R J A W S. eapply runs_keep; eauto. eapply runs_inv; eauto. apply inv0. Qed.
Print Assumptions C50_preserved_partial.
(** In particular a word written is read back after any other operations. *)
Theorem C50_read_back_partial : forall pagesz m0 os0 h l a v os h' l' b, page_ok pagesz -> runs pagesz (heap0 m0) [] os0 h l -> runs pagesz h l (Write a v :: os) h' l' ->
  In b l -> word_inside b a -> Forall (spares b a) os -> h_mem h' a = Some v.
Proof.
  intros pagesz m0 os0 h l a v os h' l' b Pg R0 R J W S. inversion R as [|? ? ? h1 r ? ? ? V E R']; subst. assert (A : a mod 8 = 0) by apply V. cbn [after run_op] in *.
  assert (I := runs_inv _ _ Pg _ _ _ _ _ R0 (inv0 m0)). destruct (step_ok pagesz m0 h l _ Pg I V) as (h1' & r' & E' & I' & _). cbn [run_op] in E'. rewrite E in E'. inversion E'; subst.
  destruct (runs_keep pagesz m0 b a Pg A W _ _ _ _ _ R' I' J S) as [K _]. rewrite K. unfold stw in E. destruct (ldw (h_mem h) a); cbn [bind] in E; [|discriminate E]. inversion E; subst. cbn [h_mem]. apply set_word_eq.
Qed.
Print Assumptions C50_read_back_partial.
(** gotcha_realloc carries the contents over, or fails and leaves everything as it was. *)
Theorem C50_realloc_partial : forall pagesz m0 os h l kernel p n size, page_ok pagesz -> runs pagesz (heap0 m0) [] os h l -> In (p, n) l -> valid h l (Realloc kernel p size) ->
  exists h' r, gotcha_realloc pagesz kernel h p size = Ok (h', r) /\
    (r <> 0 -> (forall i, 0 <= i < n -> i mod 8 = 0 -> h_mem h' (r + i) = h_mem h (p + i)) /\ In (r, size) (after l (Realloc kernel p size) r)) /\
    (r = 0 -> h' = h).
Proof.
  intros pagesz m0 os h l kernel p n size Pg R J V. assert (I := runs_inv _ _ Pg _ _ _ _ _ R (inv0 m0)).
  destruct (step_ok pagesz m0 h l _ Pg I V) as (h' & r & E & I' & _ & Mv & _). cbn [run_op moved] in *. exists h', r. split; [auto|]. split.
  - intros N. split; [intros i Hi A; apply (Mv N n i); auto|]. cbn [after]. destruct (Z.eqb_spec r 0); [lia|left; auto].
  - intros ->. destruct I as (fr & us & H & F & Bs). cbn [valid] in V. destruct V as (Jp & Hs & K).
    destruct (malloc_ok pagesz kernel h fr us size Pg H Hs K) as (h1 & r & E1 & X). unfold gotcha_realloc in E. cbv zeta in E. destruct (ldw (h_mem h) (u64 (p - 8))); cbn [bind] in E; [|discriminate E].
    destruct (size <=? a).
    { inversion E; subst. destruct (find_block us l 0 F Jp) as (u1 & c & u2 & l1 & n0 & l2 & -> & _ & _ & _ & [Bp _]). destruct H as (C & _). destruct (chunks_in _ c C) as (O1 & _); [rewrite !in_app_iff; cbn; auto|]. cbn in Bp. lia. }
    rewrite E1 in E. cbn [bind] in E. destruct X as [(-> & -> & _)|(fr' & c & Ec & _ & (C & _) & _)]; [cbn in E; inversion E; auto|].
    destruct (chunks_in _ c C) as (O1 & _); [rewrite in_app_iff; cbn; auto|]. destruct (Z.eqb_spec r 0); [lia|].
    destruct (ldw _ _); cbn [bind] in E; [|discriminate E]. destruct (copy_words _ _ _ _); cbn [bind] in E; [|discriminate E]. destruct (gotcha_free _ _); cbn [bind] in E; [|discriminate E]. inversion E; subst; lia.
Qed.
Print Assumptions C50_realloc_partial.

(** *** C58: freed memory is used again: after freeing a block of n bytes a request of at most n bytes succeeds
    without asking the kernel. *)
Theorem C58_reuse : forall pagesz m0 os h l p n size h1 r1, page_ok pagesz -> runs pagesz (heap0 m0) [] os h l -> In (p, n) l -> 0 <= size <= n -> n <= MAX_REQUEST ->
  run_op pagesz h (Free p) = Ok (h1, r1) -> exists h2 r, gotcha_malloc pagesz (fun _ => None) h1 size = Ok (h2, r) /\ r <> 0 /\ h_maps h2 = h_maps h.
Proof.
  intros pagesz m0 os h l p n size h1 r1 Pg R J Hs Hn E. destruct (runs_inv _ _ Pg _ _ _ _ _ R (inv0 m0)) as (fr & us & H & F & Bs).
  assert (Jp : In p (map fst l)) by (apply in_map_iff; exists (p, n); auto).
  assert (Fi : exists u1 c u2, us = u1 ++ c :: u2 /\ backs c (p, n)).
  { destruct (back_in _ _ _ F J) as (c & Jc & Bc). apply in_split in Jc as (u1 & u2 & ->). eauto. }
  destruct Fi as (u1 & c & u2 & -> & [Bp Bn]). cbn [fst snd] in *. destruct (free_ok h fr u1 c u2 H) as (h' & E' & H1 & Em & _).
  cbn [run_op] in E. rewrite Bp, E' in E. cbn [bind] in E. inversion E; subst h1 r1.
  destruct (malloc_ok pagesz (fun _ => None) h' (c :: fr) (u1 ++ u2) size Pg H1 ltac:(lia)) as (h2 & r & E2 & X). { intros len r Er. discriminate Er. }
  exists h2, r. split; [auto|].
  assert (Sz : round_size size <= snd c).
  { destruct H as (C & _). destruct (chunks_in _ c C) as (O1 & O2 & O3 & O4 & O5); [rewrite !in_app_iff; cbn; auto|]. destruct (round_ok size ltac:(lia)) as (R1 & R2 & R3).
    unfold round_size, MIN_SIZE, LINK_SIZE, HEADER_SIZE in *. change (16 - 8) with 8 in *. cbv zeta in *. destruct (Z.ltb_spec size 8); [cbn; lia|].
    pose proof (Z.mod_pos_bound size 8 ltac:(lia)). destruct (Z.eqb_spec (size mod 8) 0); [lia|]. unfold MAX_REQUEST in *. rewrite u64_small in * by (unfold two64; lia).
    destruct (Z.le_gt_cases (size + (8 - size mod 8)) (snd c)); [auto|]. pose proof (mod8_le (snd c) (size + (8 - size mod 8)) O4 R3 ltac:(lia)). lia. }
  destruct X as [(-> & _ & X & _)|(fr' & d & Ed & _ & (C & _) & _ & _ & _ & Mp)].
  - specialize (X c ltac:(left; auto)). lia.
  - destruct (chunks_in _ d C) as (O1 & _); [rewrite in_app_iff; cbn; auto|]. split; [lia|]. rewrite Mp; [auto|]. exists c. split; [left; auto|auto].
Qed.
Print Assumptions C58_reuse.

(** A case: the kernel gives 32768 bytes at 0x10000; three blocks, one freed and used again, one reallocated. *)
Definition at_ (r : Z) : Z -> option Z := fun _ => Some r.
Definition m00 : memory := fun a => if a =? 4096 then Some 7 else None.
Definition big (len : Z) : Z -> option Z := fun n => if n =? len then Some 65536 else None.
Lemma big_ok m len : 0 <= len <= 1000000 -> (forall a, 65536 <= a < 65536 + len -> m a = None) -> kernel_ok m (big len).
Proof. intros L H n r E. unfold big in E. destruct (Z.eqb_spec n len); inversion E; subst. split; [lia|]. split; [reflexivity|]. split; [lia|auto]. Qed.
Definition heap_of (x : outcome (heap * Z)) : heap := match x with Ok (h, _) => h | Fault _ => heap0 m00 end.
Definition results (x : outcome (heap * Z)) (r : Z) : bool := match x with Ok (_, r') => r' =? r | Fault _ => false end.
Lemma results_ok x r : results x r = true -> x = Ok (heap_of x, r).
Proof. destruct x as [[h r']|]; cbn; [|discriminate]. intros E. apply Z.eqb_eq in E. subst. auto. Qed.
Definition ex_ops : list op :=
  [Malloc (big 32768) 20; Malloc (fun _ => None) 100; Write 65544 42; Write 65576 43; Free 65576; Malloc (fun _ => None) 50; Realloc (fun _ => None) 65544 30].
Fixpoint run_ops (h : heap) (l : blocks) (os : list op) : outcome (list Z * blocks * option Z) :=
  match os with
  | [] => Ok ([], l, h_mem h 65640)
  | o :: r => do ' (h, x) <- run_op 4096 h o; do ' (xs, l, w) <- run_ops h (after l o x) r; Ok (x :: xs, l, w)
  end.
Example C49_ex_results : run_ops (heap0 m00) [] ex_ops = Ok ([65544; 65576; 0; 0; 0; 65576; 65640], [(65640, 30); (65576, 50)], Some 42).
Proof. vm_compute. reflexivity. Qed.
Example C49_ex : exists h l, runs 4096 (heap0 m00) [] ex_ops h l /\ l = [(65640, 30); (65576, 50)] /\ page_ok 4096.
Proof.
  assert (NoK : forall m, kernel_ok m (fun _ => None)) by (intros m n r E; discriminate E).
  do 2 eexists. split; [|split; [|split; [unfold two32; lia|reflexivity]]].
  - unfold ex_ops.
    eapply RCons; [split; [unfold MAX_REQUEST; lia|apply big_ok; [lia|]]|apply (results_ok _ 65544); vm_compute; reflexivity|cbv beta iota delta [after Z.eqb Pos.eqb]].
    { intros a Ha. cbn [h_mem heap0]. unfold m00. destruct (Z.eqb_spec a 4096); [lia|auto]. }
    eapply RCons; [split; [unfold MAX_REQUEST; lia|apply NoK]|apply (results_ok _ 65576); vm_compute; reflexivity|cbv beta iota delta [after Z.eqb Pos.eqb]].
    eapply RCons; [split; [reflexivity|exists (65544, 20); split; [cbn; auto|exists 65544; unfold inside; cbn; lia]]|apply (results_ok _ 0); vm_compute; reflexivity|cbv beta iota delta [after Z.eqb Pos.eqb]].
    eapply RCons; [split; [reflexivity|exists (65576, 100); split; [cbn; auto|exists 65576; unfold inside; cbn; lia]]|apply (results_ok _ 0); vm_compute; reflexivity|cbv beta iota delta [after Z.eqb Pos.eqb]].
    eapply RCons; [cbn; auto|apply (results_ok _ 0); vm_compute; reflexivity|cbn [after drop filter fst Z.eqb Pos.eqb negb]].
    eapply RCons; [split; [unfold MAX_REQUEST; lia|apply NoK]|apply (results_ok _ 65576); vm_compute; reflexivity|cbv beta iota delta [after Z.eqb Pos.eqb]].
    eapply RCons; [split; [cbn; auto|split; [unfold MAX_REQUEST; lia|apply NoK]]|apply (results_ok _ 65640); vm_compute; reflexivity|cbn [after drop filter fst Z.eqb Pos.eqb negb]].
    apply RNil.
  - reflexivity.
Qed.

(** *** Refutations: requests near 2^64 *)
(** gotcha_malloc(2^64 - 1) does not fail: it returns a block of no bytes. *)
Theorem C49_huge_refuted : exists m0 kernel size h r, 0 <= size < two64 /\ kernel_ok m0 kernel /\ gotcha_malloc 4096 kernel (heap0 m0) size = Ok (h, r) /\ r <> 0 /\
  h_mem h (r - 8) = Some 0 /\ forall q len, In (q, len) (h_maps h) -> q + len < r + size.
Proof.
  exists m00, (big 32768), 18446744073709551615, (heap_of (gotcha_malloc 4096 (big 32768) (heap0 m00) 18446744073709551615)), 65544. split; [unfold two64; lia|]. split.
  - apply big_ok; [lia|]. intros a Ha. unfold m00. destruct (Z.eqb_spec a 4096); [lia|auto].
  - split; [apply results_ok; vm_compute; reflexivity|]. split; [lia|]. split; [vm_compute; reflexivity|].
    assert (Em : h_maps (heap_of (gotcha_malloc 4096 (big 32768) (heap0 m00) 18446744073709551615)) = [(65536, 32768)]) by (vm_compute; reflexivity). rewrite Em. intros q len [J|[]]. inversion J; subst. lia.
Qed.
Print Assumptions C49_huge_refuted.
(** gotcha_malloc(2^64 - 64) overwrites a word of a live block. *)
Definition two_blocks : list op := [Malloc (big 32768) 64; Malloc (fun _ => None) 64; Write 65632 5].
Definition two_blocks_heap : heap := fold_left (fun h o => heap_of (run_op 4096 h o)) two_blocks (heap0 m00).
Theorem C50_huge_refuted : exists m0 os h l b a h' r, runs 4096 (heap0 m0) [] os h l /\ In b l /\ word_inside b a /\ a mod 8 = 0 /\
  gotcha_malloc 4096 (fun _ => None) h (two64 - 64) = Ok (h', r) /\ h_mem h a = Some 5 /\ h_mem h' a <> Some 5.
Proof.
  assert (NoK : forall m, kernel_ok m (fun _ => None)) by (intros m n r E; discriminate E).
  exists m00, two_blocks, two_blocks_heap, [(65616, 64); (65544, 64)], (65616, 64), 65632, (heap_of (gotcha_malloc 4096 (fun _ => None) two_blocks_heap (two64 - 64))), 65688.
  split; [|split; [left; auto|split; [exists 65632; unfold inside; cbn [fst snd]; lia|split; [reflexivity|split; [apply results_ok; vm_compute; reflexivity|split; [vm_compute; reflexivity|]]]]]].
  - unfold two_blocks_heap, two_blocks. cbn [fold_left].
    eapply RCons; [split; [unfold MAX_REQUEST; lia|apply big_ok; [lia|]]|apply (results_ok _ 65544); vm_compute; reflexivity|cbv beta iota delta [after Z.eqb Pos.eqb]].
    { intros a Ha. cbn [h_mem heap0]. unfold m00. destruct (Z.eqb_spec a 4096); [lia|auto]. }
    eapply RCons; [split; [unfold MAX_REQUEST; lia|apply NoK]|apply (results_ok _ 65616); vm_compute; reflexivity|cbv beta iota delta [after Z.eqb Pos.eqb]].
    eapply RCons; [split; [reflexivity|exists (65616, 64); split; [left; auto|exists 65632; unfold inside; cbn [fst snd]; lia]]|apply (results_ok _ 0); vm_compute; reflexivity|cbv beta iota delta [after Z.eqb Pos.eqb]].
    apply RNil.
  - assert (E : h_mem (heap_of (gotcha_malloc 4096 (fun _ => None) two_blocks_heap (two64 - 64))) 65632 = Some 0) by (vm_compute; reflexivity). rewrite E. discriminate.
Qed.
Print Assumptions C50_huge_refuted.
(** gotcha_free(NULL) and gotcha_realloc(NULL, n), harmless in the C library, access address 0 or -8. *)
Theorem C58_null_refuted : forall pagesz h kernel size, h_mem h 0 = None -> h_mem h (two64 - 8) = None ->
  gotcha_free h 0 = Fault OutOfBounds /\ gotcha_realloc pagesz kernel h 0 size = Fault OutOfBounds.
Proof.
  intros pagesz h kernel size H0 H8. unfold gotcha_free, gotcha_realloc. cbv zeta. change (u64 (0 - 8)) with (two64 - 8). change (u64 (two64 - 8 + 8)) with 0.
  unfold stw, ldw. rewrite H0, H8. auto.
Qed.
Print Assumptions C58_null_refuted.
