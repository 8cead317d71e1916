(** Proofs about the internal allocator. *)
From Coq Require Import Permutation.
From Verif Require Import Base ListFacts AllocModel SpecAlloc.

Notation half := 9223372036854775808.
Definition chunk := (Z * Z)%type.
Definition ends (c : chunk) : Z := fst c + 8 + snd c.
Definition okc (c : chunk) : Prop := 0 < fst c /\ fst c mod 8 = 0 /\ 8 <= snd c /\ snd c mod 8 = 0 /\ ends c <= half.
Definition disj (c d : chunk) : Prop := ends c <= fst d \/ ends d <= fst c.
Definition chunks_ok (l : list chunk) : Prop := Forall okc l /\ ForallOrdPairs disj l.
Definition memok (m : memory) (l : list chunk) : Prop :=
  forall c, In c l -> m (fst c) = Some (snd c) /\ forall a, fst c <= a < ends c -> a mod 8 = 0 -> exists v, m a = Some v.
Fixpoint chain (m : memory) (head : Z) (fr : list chunk) : Prop :=
  match fr with [] => head = 0 | c :: r => head = fst c /\ exists next, m (fst c + 8) = Some next /\ chain m next r end.
Definition in_maps (maps : list (Z * Z)) (c : chunk) : Prop := exists r len, In (r, len) maps /\ r <= fst c /\ ends c <= r + len.
Definition heap_ok (h : heap) (fr us : list chunk) : Prop :=
  chunks_ok (fr ++ us) /\ memok (h_mem h) (fr ++ us) /\ chain (h_mem h) (h_free h) fr /\ (length fr <= h_pushes h)%nat /\
  Forall (in_maps (h_maps h)) (fr ++ us).

Lemma disj_sym c d : disj c d -> disj d c.
Proof. unfold disj. tauto. Qed.
Lemma fop_perm l l' : Permutation l l' -> ForallOrdPairs disj l -> ForallOrdPairs disj l'.
Proof.
  induction 1; intros F; auto.
  - inversion F; subst. constructor; [eapply Permutation_Forall; eauto|auto].
  - inversion F as [|? ? F1 F2]; subst. inversion F2 as [|? ? F3 F4]; subst. inversion F1; subst. constructor; [constructor; [apply disj_sym; auto|auto]|]. constructor; auto.
Qed.
Lemma chunks_perm l l' : Permutation l l' -> chunks_ok l -> chunks_ok l'.
Proof. intros P [A B]. split; [eapply Permutation_Forall; eauto|eapply fop_perm; eauto]. Qed.
Lemma memok_perm m l l' : Permutation l l' -> memok m l -> memok m l'.
Proof. intros P M c J. apply M. eapply Permutation_in; [apply Permutation_sym; eauto|auto]. Qed.
Lemma chunks_cons c l : chunks_ok (c :: l) <-> okc c /\ (forall d, In d l -> disj c d) /\ chunks_ok l.
Proof.
  unfold chunks_ok. split.
  - intros [A B]. inversion A; inversion B; subst. split; [auto|]. split; [|auto]. now apply Forall_forall.
  - intros (A & B & C & D). split; constructor; auto. now apply Forall_forall.
Qed.
Lemma chunks_in l c : chunks_ok l -> In c l -> okc c.
Proof. intros [A _] J. rewrite Forall_forall in A. auto. Qed.
Lemma chunks_disj l c l' d : chunks_ok (l ++ c :: l') -> In d (l ++ l') -> disj c d.
Proof.
  intros C J. apply (chunks_perm _ (c :: l ++ l')) in C; [|apply Permutation_sym, Permutation_middle]. apply chunks_cons in C as (_ & D & _). auto.
Qed.
(** the chunks and chain depend on few words *)
Lemma chain_frame m m' : forall fr head, (forall c, In c fr -> m' (fst c + 8) = m (fst c + 8)) -> chain m head fr -> chain m' head fr.
Proof.
  induction fr as [|c fr IH]; intros head E H; [exact H|]. destruct H as (-> & nx & Hn & H). split; [auto|]. exists nx. split; [rewrite E; [auto|left; auto]|].
  apply IH; [|auto]. intros d J. apply E. right. auto.
Qed.
Lemma set_word_eq m a v : set_word m a v a = Some v.
Proof. unfold set_word. now rewrite Z.eqb_refl. Qed.
Lemma set_word_neq m a v b : b <> a -> set_word m a v b = m b.
Proof. intros N. unfold set_word. destruct (Z.eqb_spec b a); [lia|auto]. Qed.
Lemma set_word_some m a v b : (exists w, m b = Some w) -> exists w, set_word m a v b = Some w.
Proof. intros H. unfold set_word. destruct (b =? a); eauto. Qed.
Lemma stw_ok m a v w : m a = Some w -> stw m a v = Ok (set_word m a v).
Proof. intros E. unfold stw, ldw. now rewrite E. Qed.
(** a write of a word that is no header keeps memok *)
Lemma memok_set m l a v : chunks_ok l -> memok m l -> (forall c, In c l -> a <> fst c) -> memok (set_word m a v) l.
Proof.
  intros C M N c J. destruct (M c J) as [M1 M2]. split.
  - rewrite set_word_neq; [auto|]. intros E. apply (N c J). auto.
  - intros b Hb A. apply set_word_some. auto.
Qed.
Lemma memok_app m l l' : memok m (l ++ l') <-> memok m l /\ memok m l'.
Proof. unfold memok. split; [intros H; split; intros c J; apply H; apply in_app_iff; auto|]. intros [H K] c J. apply in_app_iff in J as [J|J]; auto. Qed.
Lemma memok_frame m m' l : (forall c a, In c l -> fst c <= a < ends c -> m' a = m a) -> (forall c, In c l -> okc c) -> memok m l -> memok m' l.
Proof.
  intros E O M c J. destruct (M c J) as [M1 M2]. destruct (O c J) as (O1 & O2 & O3 & _). unfold ends in *. split.
  - rewrite (E c); auto. unfold ends; lia.
  - intros a Ha A. rewrite (E c); auto.
Qed.
(** the payload word of one chunk is not the header of any *)
Lemma payload_header l c d : chunks_ok l -> In c l -> In d l -> fst c + 8 <> fst d.
Proof.
  intros C Jc Jd E. pose proof (chunks_in _ _ C Jc) as (A1 & A2 & A3 & A4 & A5). pose proof (chunks_in _ _ C Jd) as (B1 & B2 & B3 & B4 & B5).
  apply in_split in Jc as (l1 & l2 & ->). apply in_app_iff in Jd as [Jd|[Jd|Jd]].
  - assert (D := chunks_disj _ _ _ d C ltac:(apply in_app_iff; auto)). unfold disj, ends in *. lia.
  - subst. lia.
  - assert (D := chunks_disj _ _ _ d C ltac:(apply in_app_iff; auto)). unfold disj, ends in *. lia.
Qed.

Lemma u64_small z : 0 <= z < two64 -> u64 z = z.
Proof. intros. apply Z.mod_small. auto. Qed.
Lemma s64_small z : - half <= z < half -> s64 z = z.
Proof.
  intros H. unfold s64, two64. cbv zeta. destruct (Z.ltb_spec z 0).
  - replace (z mod 18446744073709551616) with (z + 18446744073709551616). + destruct (Z.ltb_spec (z + 18446744073709551616) half); lia.
    + symmetry. rewrite <- (Z_mod_plus z 1) by lia. apply Z.mod_small. lia.
  - rewrite Z.mod_small by lia. destruct (Z.ltb_spec z half); lia.
Qed.

(** *** sizes *)
Lemma round_ok size : 0 <= size <= MAX_REQUEST -> size <= round_size size /\ 8 <= round_size size <= size + 8 /\ round_size size mod 8 = 0.
Proof.
  unfold MAX_REQUEST. intros H. unfold round_size, MIN_SIZE, LINK_SIZE, HEADER_SIZE. change (16 - 8) with 8. cbv zeta.
  set (s := if size <? 8 then 8 else size). assert (S : size <= s /\ 8 <= s <= size + 8) by (unfold s; destruct (Z.ltb_spec size 8); lia).
  pose proof (Z.mod_pos_bound s 8 ltac:(lia)). pose proof (Z.div_mod s 8 ltac:(lia)) as D.
  destruct (Z.eqb_spec (s mod 8) 0) as [E|E]; [lia|]. rewrite u64_small by (unfold two64; lia).
  assert (Hs : 8 <= size) by (unfold s in E; destruct (Z.ltb_spec size 8); [cbn in E; lia|lia]).
  assert (Es : s = size) by (unfold s; destruct (Z.ltb_spec size 8); lia). rewrite Es in *. split; [lia|]. split; [lia|].
  replace (size + (8 - size mod 8)) with ((size / 8 + 1) * 8) by lia. apply Z_mod_mult.
Qed.
Lemma block_ok pagesz n : page_ok pagesz -> 8 <= n <= MAX_REQUEST + 8 -> n mod 8 = 0 ->
  exists len, block_size pagesz n = Ok len /\ n + 8 <= len < half /\ len mod 8 = 0.
Proof.
  unfold MAX_REQUEST, page_ok, two32. intros [P1 P2] H A. unfold block_size, HEADER_SIZE, MIN_BLOCK_SIZE. change (1024 * 32) with 32768.
  rewrite u64_small by (unfold two64; lia). rewrite Z.gtb_ltb. destruct (Z.ltb_spec 32768 (n + 8)).
  - destruct (Z.eqb_spec pagesz 0); [lia|]. rewrite s64_small by lia. cbv zeta. rewrite Z.rem_mod_nonneg by lia.
    pose proof (Z.mod_pos_bound (n + 8) pagesz ltac:(lia)). pose proof (Z.div_mod (n + 8) pagesz ltac:(lia)) as D.
    apply Z.mod_divide in A; [|lia]. destruct A as [k A]. apply Z.mod_divide in P2; [|lia]. destruct P2 as [j P2].
    destruct (Z.eqb_spec ((n + 8) mod pagesz) 0) as [E|E].
    + exists (n + 8). split; [auto|]. split; [lia|]. replace (n + 8) with ((k + 1) * 8) by lia. apply Z_mod_mult.
    + destruct (Z.leb_spec (n + 8 + (pagesz - (n + 8) mod pagesz)) 9223372036854775807); [|lia].
      eexists. split; [reflexivity|]. split; [lia|]. replace (n + 8 + (pagesz - (n + 8) mod pagesz)) with (((n + 8) / pagesz + 1) * j * 8); [apply Z_mod_mult|].
      replace (((n + 8) / pagesz + 1) * j * 8) with (pagesz * ((n + 8) / pagesz) + pagesz) by (rewrite P2 at 1 3; ring). lia.
  - exists 32768. split; [auto|]. split; [lia|]. reflexivity.
Qed.

(** *** the search *)
Definition lasth (l : list chunk) : Z := last (map fst l) 0.
Definition fit_spec (n : Z) (l : list chunk) (r : option (Z * Z * Z)) : Prop :=
  match r with
  | None => forall c, In c l -> snd c < n
  | Some (p, b, d) => exists l1 sz l2, l = l1 ++ (b, sz) :: l2 /\ p = lasth l1 /\ d = sz - n /\ 0 <= d /\ forall c, In c l -> n <= snd c -> sz <= snd c
  end.
Lemma lasth_snoc l c : lasth (l ++ [c]) = fst c.
Proof. unfold lasth. rewrite map_app. cbn. apply last_last. Qed.
Lemma fit_zero n l r p b l2 : fit_spec n l (Some (p, b, 0)) -> l ++ r = l2 -> fit_spec n l2 (Some (p, b, 0)).
Proof.
  intros (l1 & sz & l3 & E & P & D & D0 & M) <-. exists l1, sz, (l3 ++ r). split; [rewrite E, <- app_assoc; auto|]. split; [auto|]. split; [auto|]. split; [auto|].
  intros c J N. lia.
Qed.
Lemma best_fit_ok m n : 0 <= n < half -> forall fr fuel f1 cur best,
  (forall c, In c (f1 ++ fr) -> okc c) -> (forall c, In c fr -> m (fst c) = Some (snd c)) -> chain m cur fr -> (length fr < fuel)%nat -> fit_spec n f1 best ->
  exists r, best_fit fuel m n (lasth f1) cur best = Ok r /\ fit_spec n (f1 ++ fr) r.
Proof.
  intros Hn. induction fr as [|c fr IH]; intros fuel f1 cur best O M C F B; (destruct fuel as [|g]; [cbn in F; lia|]); cbn [best_fit].
  - cbn in C. subst. cbn [Z.eqb]. rewrite app_nil_r. eauto.
  - destruct C as (-> & nx & Hx & C). destruct (O c) as (A1 & A2 & A3 & A4 & A5); [apply in_app_iff; right; left; auto|]. unfold ends in A5.
    destruct (Z.eqb_spec (fst c) 0); [lia|]. unfold ldw at 1. rewrite (M c) by (left; auto). cbn [bind].
    rewrite s64_small by lia. rewrite u64_small by (unfold two64; lia). unfold ldw. rewrite Hx. cbn [bind].
    assert (Next : forall best', fit_spec n (f1 ++ [c]) best' -> exists r, best_fit g m n (fst c) nx best' = Ok r /\ fit_spec n (f1 ++ c :: fr) r).
    { intros best' B'. rewrite <- (lasth_snoc f1 c). replace (f1 ++ c :: fr) with ((f1 ++ [c]) ++ fr) by (rewrite <- app_assoc; auto).
      apply IH; auto; [intros d J; apply O; rewrite <- app_assoc in J; auto|intros d J; apply M; right; auto|cbn [length] in F; lia]. }
    (* the chunk becomes the best *)
    assert (Here : 0 <= snd c - n -> (forall d, In d f1 -> n <= snd d -> snd c <= snd d) -> fit_spec n (f1 ++ [c]) (Some (lasth f1, fst c, snd c - n))).
    { intros D Mi. exists f1, (snd c), []. split; [destruct c; auto|]. split; [auto|]. split; [auto|]. split; [auto|]. intros d J N. apply in_app_iff in J as [J|[J|[]]]; [auto|]. subst. lia. }
    (* or not *)
    destruct (Z.leb_spec 0 (snd c - n)) as [Ld|Ld].
    + destruct best as [[[p b] d]|]; cbn [andb].
      * destruct B as (l1 & sz & l2 & -> & P & D & D0 & Mi). destruct (Z.ltb_spec (snd c - n) d) as [Lt|Ge].
        -- assert (Mi' : forall d0, In d0 (l1 ++ (b, sz) :: l2) -> n <= snd d0 -> snd c <= snd d0) by (intros d0 J N; specialize (Mi d0 J N); lia).
           destruct (Z.eqb_spec (snd c - n) 0) as [E|E].
           ++ eexists. split; [reflexivity|]. specialize (Here Ld Mi'). rewrite E in Here |- *. eapply fit_zero with (r := fr); [exact Here|]. rewrite <- app_assoc. auto.
           ++ apply Next. auto.
        -- apply Next. exists l1, sz, (l2 ++ [c]). split; [rewrite <- app_assoc; auto|]. split; [auto|]. split; [auto|]. split; [auto|].
           intros x J N. apply in_app_iff in J as [J|[J|[]]]; [auto|]. subst. lia.
      * assert (Mi' : forall d0, In d0 f1 -> n <= snd d0 -> snd c <= snd d0) by (intros d0 J N; specialize (B d0 J); lia).
        destruct (Z.eqb_spec (snd c - n) 0) as [E|E].
        -- eexists. split; [reflexivity|]. specialize (Here Ld Mi'). rewrite E in Here |- *. eapply fit_zero with (r := fr); [exact Here|]. rewrite <- app_assoc. auto.
        -- apply Next. auto.
    + cbn [andb]. apply Next. destruct best as [[[p b] d]|].
      * destruct B as (l1 & sz & l2 & -> & P & D & D0 & Mi). exists l1, sz, (l2 ++ [c]). split; [rewrite <- app_assoc; auto|]. split; [auto|]. split; [auto|]. split; [auto|].
        intros x J N. apply in_app_iff in J as [J|[J|[]]]; [auto|]. subst. lia.
      * intros x J. apply in_app_iff in J as [J|[J|[]]]; [auto|]. subst. lia.
Qed.

(** *** removing an element from the free list *)
Lemma unlink_chain m c f2 q nx : forall f1 head, m (fst c + 8) = Some nx ->
  (forall d, In d (f1 ++ f2) -> fst d <> fst q) ->
  chain m head (f1 ++ q :: c :: f2) -> chain (set_word m (fst q + 8) nx) head (f1 ++ q :: f2).
Proof.
  induction f1 as [|x f1 IH]; intros head Hn N H; cbn [app chain] in *.
  - destruct H as (-> & n1 & H1 & -> & n2 & H2 & H). rewrite Hn in H2. injection H2 as <-. split; [auto|]. exists nx. split; [apply set_word_eq|].
    eapply chain_frame; [|exact H]. intros d J. apply set_word_neq. specialize (N d J). lia.
  - destruct H as (-> & n1 & H1 & H). split; [auto|]. exists n1. split; [rewrite set_word_neq; [auto|]; specialize (N x ltac:(left; auto)); lia|].
    apply IH; auto. intros d J. apply N. right. auto.
Qed.
Lemma chain_next m f2 c : forall f1 head, chain m head (f1 ++ c :: f2) -> exists nx, m (fst c + 8) = Some nx.
Proof. induction f1 as [|x f1 IH]; intros head H; cbn [app chain] in H; destruct H as (_ & n1 & H1 & H); eauto. Qed.
Lemma chain_head_nil m c f2 head : chain m head (c :: f2) -> forall nx, m (fst c + 8) = Some nx -> chain m nx f2.
Proof. intros (_ & n & H & K) nx E. rewrite E in H. injection H as <-. auto. Qed.

Lemma perm_out {A} (f1 f2 us : list A) c : Permutation ((f1 ++ c :: f2) ++ us) ((f1 ++ f2) ++ c :: us).
Proof. rewrite <- !app_assoc. cbn. apply Permutation_app_head. apply Permutation_middle. Qed.

(** the memory outside the free chunks is unchanged *)
Lemma unlink_ok h f1 c f2 us nx : heap_ok h (f1 ++ c :: f2) us -> h_mem h (fst c + 8) = Some nx ->
  exists h', (if negb (lasth f1 =? 0) then do m <- stw (h_mem h) (u64 (lasth f1 + 8)) nx; Ok (mkHeap m (h_free h) (h_maps h) (h_pushes h))
             else Ok (mkHeap (h_mem h) nx (h_maps h) (h_pushes h))) = Ok h' /\
    heap_ok h' (f1 ++ f2) (c :: us) /\ h_maps h' = h_maps h /\ h_pushes h' = h_pushes h /\
    (forall a, (forall d, In d f1 -> ~ fst d + 8 <= a < ends d) -> h_mem h' a = h_mem h a).
Proof.
  intros (C & M & Ch & L & I) Hn. assert (P := perm_out f1 f2 us c).
  assert (C' := chunks_perm _ _ P C). assert (M' := memok_perm _ _ _ P M). assert (I' := Permutation_Forall P I).
  destruct f1 as [|x f1] using rev_ind.
  - cbn [lasth map last Z.eqb negb]. eexists. split; [reflexivity|]. split; [|auto]. split; [auto|]. split; [auto|]. split; [|split; auto].
    + cbn [app h_mem h_free] in *. eapply chain_head_nil; eauto.
    + cbn in *. lia.
  - clear IHf1. rewrite lasth_snoc. pose proof (chunks_in _ x C) as Ox. destruct Ox as (A1 & A2 & A3 & A4 & A5). { rewrite !in_app_iff. left. left. right. left. auto. }
    unfold ends in A5. destruct (Z.eqb_spec (fst x) 0); [lia|]. cbn [negb]. rewrite u64_small by (unfold two64; lia).
    assert (Nx : exists w, h_mem h (fst x + 8) = Some w). { rewrite <- app_assoc in Ch. cbn in Ch. eapply chain_next; eauto. }
    destruct Nx as [w Nx]. rewrite (stw_ok _ _ _ _ Nx). cbn [bind]. eexists. split; [reflexivity|]. split; [|split; [auto|split; [auto|]]].
    + split; [auto|]. split; [|split; [|split; auto]]; cbn [h_mem h_free h_pushes].
      * apply memok_set; auto. intros d J. apply not_eq_sym. intros E. apply (payload_header _ x d C'); [|auto|auto]. rewrite !in_app_iff. left. left. right. left. auto.
      * rewrite <- !app_assoc in *. cbn [app] in *. apply unlink_chain with (c := c); auto.
        intros d J E. assert (D : disj x d). { eapply (chunks_disj f1 x (c :: f2 ++ us)); [exact C|]. rewrite in_app_iff in J |- *. cbn. rewrite in_app_iff. tauto. }
        pose proof (chunks_in _ d C) as Od. destruct Od as (B1 & B2 & B3 & _). { rewrite in_app_iff in J |- *. cbn. rewrite in_app_iff. tauto. } unfold disj, ends in D. lia.
      * rewrite !app_length in *. cbn [length] in *. lia.
    + intros a H. cbn [h_mem]. apply set_word_neq. intros ->. apply (H x); [apply in_app_iff; right; left; auto|]. unfold ends. lia.
Qed.

(** *** splitting *)
Lemma mod_sub a b : a mod 8 = 0 -> b mod 8 = 0 -> (a - b) mod 8 = 0.
Proof. intros A B. apply Z.mod_divide in A, B; try lia. apply Z.mod_divide; [lia|]. apply Z.divide_sub_r; auto. Qed.
Lemma mod_add a b : a mod 8 = 0 -> b mod 8 = 0 -> (a + b) mod 8 = 0.
Proof. intros A B. apply Z.mod_divide in A, B; try lia. apply Z.mod_divide; [lia|]. apply Z.divide_add_r; auto. Qed.
Lemma mod8_le a b : a mod 8 = 0 -> b mod 8 = 0 -> a < b -> a + 8 <= b.
Proof. intros A B L. apply Z.mod_divide in A, B; try lia. destruct A, B. lia. Qed.
Lemma split_ok h fr us al sz n : heap_ok h fr ((al, sz) :: us) -> 8 <= n <= sz -> n mod 8 = 0 ->
  exists h' fr' n', split_allocation h al n = Ok h' /\ heap_ok h' fr' ((al, n') :: us) /\ n <= n' <= sz /\ h_maps h' = h_maps h /\
    (forall a, ~ al <= a < al + 8 + sz -> h_mem h' a = h_mem h a) /\
    (forall a, al + 8 <= a < al + 8 + n -> h_mem h' a = h_mem h a).
Proof.
  intros (C & M & Ch & L & I) Hn A. destruct h as [m free maps pushes]. cbn [h_mem h_free h_maps h_pushes] in *.
  assert (P : Permutation (fr ++ (al, sz) :: us) ((al, sz) :: fr ++ us)) by apply Permutation_sym, Permutation_middle.
  assert (C1 := chunks_perm _ _ P C). assert (M1 := memok_perm _ _ _ P M). assert (I1 := Permutation_Forall P I).
  apply chunks_cons in C1 as ((A1 & A2 & A3 & A4 & A5) & D & C2). unfold ends in A5. cbn [fst snd] in *.
  destruct (M1 (al, sz) ltac:(left; auto)) as [Mh Mw]. cbn [fst snd] in *. unfold ends in Mw. cbn [fst snd] in Mw.
  unfold split_allocation. cbn [h_mem h_free h_maps h_pushes]. unfold ldw at 1. rewrite Mh. cbn [bind]. unfold LINK_SIZE, HEADER_SIZE.
  rewrite (u64_small (sz - n)) by (unfold two64; lia). destruct (Z.leb_spec (sz - n) 16).
  - exists (mkHeap m free maps pushes), fr, sz. split; [auto|]. split; [exact (conj C (conj M (conj Ch (conj L I))))|]. split; [lia|]. auto.
  - assert (A8 : (sz - n) mod 8 = 0) by (apply mod_sub; auto).
    rewrite (stw_ok _ _ _ _ Mh). cbn [bind]. rewrite (u64_small (al + 8 + n)) by (unfold two64; lia).
    assert (An : (al + 8 + n) mod 8 = 0) by (apply mod_add; [apply mod_add; auto|auto]).
    destruct (Mw (al + 8 + n) ltac:(lia) An) as [w1 W1]. 
    rewrite (stw_ok _ _ _ w1) by (rewrite set_word_neq; [auto|lia]). cbn [bind].
    rewrite (u64_small (al + 8 + n + 8)) by (unfold two64; lia).
    destruct (Mw (al + 8 + n + 8) ltac:(lia) ltac:(apply mod_add; auto)) as [w2 W2].
    rewrite (stw_ok _ _ _ w2) by (rewrite !set_word_neq; [auto|lia|lia]). cbn [bind].
    rewrite (u64_small (sz - n - 8)) by (unfold two64; lia).
    set (nw := (al + 8 + n, sz - n - 8)). set (m3 := set_word _ (al + 8 + n + 8) free).
    assert (Fr : forall a, ~ al <= a < al + 8 + sz -> m3 a = m a) by (intros a Ha; unfold m3; rewrite !set_word_neq; [auto|lia|lia|lia]).
    assert (Out : forall c a, In c (fr ++ us) -> fst c <= a < ends c -> m3 a = m a).
    { intros c a J Ha. apply Fr. specialize (D c J). unfold disj, ends in *. cbn [fst snd] in *. lia. }
    assert (Cn : chunks_ok (nw :: (al, n) :: fr ++ us)).
    { apply chunks_cons. split; [|split].
      - unfold okc, nw, ends; cbn [fst snd]. split; [lia|]. split; [auto|]. split; [|split; [apply mod_sub; auto|lia]].
        pose proof (mod8_le 16 (sz - n) eq_refl A8 ltac:(lia)). lia.
      - intros d [<-|J]; [unfold disj, nw, ends; cbn [fst snd]; lia|]. specialize (D d J). unfold disj, nw, ends in *; cbn [fst snd] in *. lia.
      - apply chunks_cons. split; [|split; [|auto]].
        + unfold okc, ends; cbn [fst snd]. repeat split; auto; lia.
        + intros d J. specialize (D d J). unfold disj, ends in *; cbn [fst snd] in *. lia. }
    assert (Mn : memok m3 (nw :: (al, n) :: fr ++ us)).
    { intros c [<-|[<-|J]]; cbn [fst snd].
      - unfold nw; cbn [fst snd]. split; [unfold m3; rewrite set_word_neq by lia; apply set_word_eq|]. intros a Ha Aa. unfold m3. do 3 apply set_word_some. apply Mw; [|auto]. unfold ends in Ha; cbn [fst snd] in Ha. lia.
      - split; [unfold m3; rewrite !set_word_neq by lia; apply set_word_eq|]. intros a Ha Aa. unfold m3. do 3 apply set_word_some. apply Mw; [|auto]. unfold ends in Ha; cbn [fst snd] in Ha. lia.
      - assert (Oc : okc c) by (eapply chunks_in; [exact C2|auto]). apply (memok_frame m m3 (fr ++ us) Out (fun c J => chunks_in _ c C2 J) (fun e Je => M1 e (or_intror Je)) c J). }
    exists (mkHeap m3 (al + 8 + n) maps (S pushes)), (nw :: fr), n. split; [reflexivity|].
    assert (P2 : Permutation (nw :: (al, n) :: fr ++ us) ((nw :: fr) ++ (al, n) :: us)) by (cbn; constructor; apply Permutation_middle).
    split; [|split; [lia|split; [auto|split; [cbn; exact Fr|]]]].
    + split; [eapply chunks_perm; eauto|]. split; [eapply memok_perm; eauto|]. cbn [h_mem h_free h_maps h_pushes]. split; [|split].
      * split; [reflexivity|]. exists free. split; [unfold nw; cbn [fst]; apply set_word_eq|]. eapply chain_frame; [|exact Ch].
        intros c J. apply (Out c); [apply in_app_iff; auto|]. assert (Oc : okc c) by (eapply chunks_in; [exact C2|apply in_app_iff; auto]). destruct Oc as (O1 & O2 & O3 & _). unfold ends. lia.
      * cbn [length]. lia.
      * eapply Permutation_Forall; [exact P2|]. inversion I1 as [|? ? (r & len & J & R1 & R2) I2]; subst. unfold ends in R2. cbn [fst snd] in R1, R2.
        constructor; [exists r, len; split; [auto|]; unfold nw, ends; cbn [fst snd]; lia|]. constructor; [exists r, len; split; [auto|]; unfold ends; cbn [fst snd]; lia|auto].
    + cbn [h_mem]. intros a Ha. unfold m3. rewrite !set_word_neq; [auto|lia|lia|lia].
Qed.

(** *** new memory *)
Lemma map_ok h fr us r len : heap_ok h fr us -> 0 < r -> r mod 8 = 0 -> 16 <= len -> len mod 8 = 0 -> r + len <= half -> (forall a, r <= a < r + len -> h_mem h a = None) ->
  heap_ok (mkHeap (set_word (mapped (h_mem h) r len) r (len - 8)) (h_free h) ((r, len) :: h_maps h) (h_pushes h)) fr ((r, len - 8) :: us).
Proof.
  intros (C & M & Ch & L & I) R0 R8 L16 L8 Rh Fresh.
  assert (P : Permutation (fr ++ (r, len - 8) :: us) ((r, len - 8) :: fr ++ us)) by apply Permutation_sym, Permutation_middle.
  set (m' := set_word (mapped (h_mem h) r len) r (len - 8)).
  assert (Fr : forall a, h_mem h a <> None -> m' a = h_mem h a).
  { intros a N. assert (~ r <= a < r + len) by (intros H; apply N; auto). unfold m'. rewrite set_word_neq by lia. unfold mapped. replace ((r <=? a) && (a <? r + len)) with false by lia. reflexivity. }
  assert (Oc : forall c, In c (fr ++ us) -> okc c) by (intros; eapply chunks_in; eauto).
  assert (D : forall c, In c (fr ++ us) -> disj (r, len - 8) c).
  { intros c J. unfold disj, ends. cbn [fst snd]. destruct (Z.le_gt_cases (r + 8 + (len - 8)) (fst c)) as [K1|K1]; [auto|]. destruct (Z.le_gt_cases (fst c + 8 + snd c) r) as [K2|K2]; [auto|]. exfalso.
    destruct (Oc c J) as (O1 & O2 & O3 & O4 & O5). destruct (M c J) as [Mh Mw]. unfold ends in *.
    destruct (Z.le_gt_cases r (fst c)) as [K3|K3].
    - rewrite Fresh in Mh by lia. discriminate Mh.
    - destruct (Mw r) as [v V]; [lia|auto|]. rewrite Fresh in V by lia. discriminate V. }
  assert (Ag : forall c a, In c (fr ++ us) -> fst c <= a < ends c -> m' a = h_mem h a).
  { intros c a J Ha. specialize (D c J). unfold disj, ends in *. cbn [fst snd] in *. unfold m'. rewrite set_word_neq by lia. unfold mapped. replace ((r <=? a) && (a <? r + len)) with false by lia. reflexivity. }
  split; [|split; [|split; [|split]]]; cbn [h_mem h_free h_maps h_pushes].
  - eapply chunks_perm; [apply Permutation_sym; exact P|]. apply chunks_cons. split; [|split; auto].
    unfold okc, ends; cbn [fst snd]. split; [auto|]. split; [auto|]. split; [lia|]. split; [apply mod_sub; auto|lia].
  - eapply memok_perm; [apply Permutation_sym; exact P|]. intros c [<-|J].
    + cbn [fst snd]. split; [apply set_word_eq|]. unfold ends. cbn [fst snd]. intros a Ha Aa. apply set_word_some. unfold mapped.
      replace ((r <=? a) && (a <? r + len)) with true by lia. rewrite Aa. cbn. eauto.
    + eapply (memok_frame (h_mem h) m' (fr ++ us)); eauto.
  - eapply chain_frame; [|exact Ch]. intros c J. apply (Ag c); [apply in_app_iff; auto|]. destruct (Oc c ltac:(apply in_app_iff; auto)) as (O1 & O2 & O3 & _). unfold ends. lia.
  - auto.
  - eapply Permutation_Forall; [apply Permutation_sym; exact P|]. constructor.
    + exists r, len. split; [left; auto|]. unfold ends; cbn [fst snd]. lia.
    + eapply Forall_impl; [|exact I]. intros c (r' & l' & J & K). exists r', l'. split; [right; auto|auto].
Qed.

(** *** gotcha_malloc *)
Definition untouched (h h' : heap) (fr us : list chunk) : Prop :=
  (forall c a, In c us -> fst c <= a < ends c -> h_mem h' a = h_mem h a) /\
  (forall a, h_mem h a <> None -> (forall c, In c fr -> ~ fst c <= a < ends c) -> h_mem h' a = h_mem h a).
Lemma malloc_ok pagesz kernel h fr us size : page_ok pagesz -> heap_ok h fr us -> 0 <= size <= MAX_REQUEST -> kernel_ok (h_mem h) kernel ->
  exists h' r, gotcha_malloc pagesz kernel h size = Ok (h', r) /\
    ((r = 0 /\ h' = h /\ (forall d, In d fr -> snd d < round_size size) /\ exists len, kernel len = None) \/
     (exists fr' c, fst c + 8 = r /\ round_size size <= snd c /\ heap_ok h' fr' (c :: us) /\ untouched h h' fr us /\ incl (h_maps h) (h_maps h') /\
        (In c fr \/ (forall d, In d fr -> d <> c)) /\
        ((exists d, In d fr /\ round_size size <= snd d) -> h_maps h' = h_maps h))).
Proof.
  intros Pg H Hs K. assert (H' := H). destruct H' as (C & M & Ch & L & I). destruct (round_ok size Hs) as (R1 & R2 & R3). unfold gotcha_malloc. cbv zeta.
  set (n := round_size size) in *. assert (Hm : MAX_REQUEST = 9223372028264841216) by reflexivity.
  assert (Oc : forall c, In c (fr ++ us) -> okc c) by (intros; eapply chunks_in; eauto).
  destruct (best_fit_ok (h_mem h) n ltac:(lia) fr (S (h_pushes h)) [] (h_free h) None) as (r & E & B); auto; [intros; apply Oc; cbn in *; apply in_app_iff; auto|intros c J; apply M; apply in_app_iff; auto|lia|intros c []|].
  cbn [lasth map last app] in E, B. rewrite E. cbn [bind]. destruct r as [[[p b] d]|].
  - destruct B as (f1 & sz & f2 & Ef & -> & -> & D0 & Mi). rewrite Ef in *.
    destruct (chain_next _ _ _ _ _ Ch) as [nx Hx]. cbn [fst] in Hx.
    assert (Jb : In (b, sz) ((f1 ++ (b, sz) :: f2) ++ us)) by (rewrite !in_app_iff; cbn; auto).
    destruct (Oc _ Jb) as (O1 & O2 & O3 & O4 & O5). unfold ends in O5. cbn [fst snd] in *.
    rewrite u64_small by (unfold two64; lia). unfold ldw. rewrite Hx. cbn [bind].
    destruct (unlink_ok h f1 (b, sz) f2 us nx H Hx) as (h1 & E1 & H1 & Mp1 & Pu1 & U1). rewrite E1. cbn [bind].
    destruct (split_ok h1 (f1 ++ f2) us b sz n H1 ltac:(lia) R3) as (h2 & fr' & n' & E2 & H2 & N2 & Mp2 & U2 & U3). rewrite E2. cbn [bind].
    exists h2, (b + 8). split; [reflexivity|]. right. exists fr', (b, n'). cbn [fst snd]. split; [auto|]. split; [lia|]. split; [auto|].
    assert (Ut : forall a, (forall c, In c (f1 ++ (b, sz) :: f2) -> ~ fst c <= a < ends c) -> h_mem h2 a = h_mem h a).
    { intros a Ha. rewrite U2, U1; auto.
      - intros d J Hd. apply (Ha d); [apply in_app_iff; auto|]. lia.
      - specialize (Ha (b, sz)). unfold ends in Ha. cbn [fst snd] in Ha. apply Ha. apply in_app_iff. right. left. auto. }
    split; [|split; [rewrite Mp2, Mp1; apply incl_refl|split; [|rewrite Mp2, Mp1; auto]]].
    + split; [|intros a _ Ha; auto]. intros c a J Ha. apply Ut. intros x Jx Hx2.
      apply in_split in J as (u1 & u2 & ->). rewrite app_assoc in C. assert (Dj := chunks_disj _ c u2 x C). unfold disj in Dj.
      rewrite !in_app_iff in *. specialize (Dj ltac:(tauto)). lia.
    + destruct (Z.eq_dec n' sz) as [->|Nn]; [left; apply in_app_iff; right; left; auto|]. right. intros x J ->.
      assert (Jx : In (b, n') (f1 ++ (f2 ++ us)) \/ (b, n') = (b, sz)). { rewrite !in_app_iff in *. cbn in J. intuition. }
      destruct Jx as [Jx|Jx]; [|inversion Jx; lia]. rewrite <- app_assoc in C. cbn [app] in C. assert (Dj := chunks_disj _ _ _ _ C Jx). unfold disj, ends in Dj. cbn [fst snd] in Dj. lia.
  - cbn in B. destruct (block_ok pagesz n Pg ltac:(lia) R3) as (len & -> & Ll & L8). cbn [bind].
    rewrite (u64_small len) by (unfold two64; lia). destruct (kernel len) as [nw|] eqn:Ek.
    + destruct (K _ _ Ek) as (K1 & K2 & K3 & K4). cbn [h_mem h_free h_maps h_pushes].
      assert (Mp : mapped (h_mem h) nw len nw = Some 0). { unfold mapped. rewrite K2. replace ((nw <=? nw) && (nw <? nw + len)) with true by lia. reflexivity. }
      rewrite (stw_ok _ _ _ _ Mp). cbn [bind]. unfold HEADER_SIZE. rewrite (u64_small (len - 8)) by (unfold two64; lia).
      assert (H1 := map_ok h fr us nw len H K1 K2 ltac:(lia) L8 K3 K4).
      destruct (split_ok _ fr us nw (len - 8) n H1 ltac:(lia) R3) as (h2 & fr' & n' & E2 & H2 & N2 & Mp2 & U2 & U3). rewrite E2. cbn [bind].
      rewrite u64_small by (unfold two64; lia). exists h2, (nw + 8). split; [reflexivity|]. right. exists fr', (nw, n'). cbn [fst snd]. split; [auto|]. split; [lia|]. split; [auto|].
      cbn [h_maps h_mem] in *.
      assert (Ut : forall a, ~ nw <= a < nw + len -> h_mem h2 a = h_mem h a).
      { intros a Ha. rewrite U2 by lia. rewrite set_word_neq by lia. unfold mapped. replace ((nw <=? a) && (a <? nw + len)) with false by lia. auto. }
      assert (Dj : forall c, In c (fr ++ us) -> disj (nw, len - 8) c).
      { destruct H1 as (C1 & _). intros c J. eapply chunks_disj; [exact C1|auto]. }
      split; [|split; [rewrite Mp2; apply incl_tl, incl_refl|split]].
      * split.
        -- intros c a J Ha. apply Ut. specialize (Dj c ltac:(apply in_app_iff; auto)). unfold disj, ends in *. cbn [fst snd] in *. lia.
        -- intros a N _. apply Ut. intros Ha. apply N. auto.
      * right. intros d J ->. specialize (Dj (nw, n') ltac:(apply in_app_iff; auto)). pose proof (Oc (nw, n') ltac:(apply in_app_iff; auto)) as (O1 & O2 & O3 & _). cbn [fst snd] in O3. unfold disj, ends in Dj. cbn [fst snd] in Dj. lia.
      * intros (d & J & Hd). specialize (B d J). lia.
    + exists h, 0. split; [auto|]. left. eauto.
Qed.

(** *** gotcha_free *)
Lemma perm_in {A} (fr u1 u2 : list A) c : Permutation (fr ++ u1 ++ c :: u2) ((c :: fr) ++ u1 ++ u2).
Proof. apply Permutation_sym. cbn. rewrite !app_assoc. apply Permutation_middle. Qed.
Lemma free_ok h fr u1 c u2 : heap_ok h fr (u1 ++ c :: u2) ->
  exists h', gotcha_free h (fst c + 8) = Ok h' /\ heap_ok h' (c :: fr) (u1 ++ u2) /\ h_maps h' = h_maps h /\ (forall a, a <> fst c + 8 -> h_mem h' a = h_mem h a).
Proof.
  intros (C & M & Ch & L & I). assert (P := perm_in fr u1 u2 c). assert (J : In c (fr ++ u1 ++ c :: u2)) by (rewrite !in_app_iff; cbn; auto).
  destruct (chunks_in _ _ C J) as (O1 & O2 & O3 & O4 & O5). unfold ends in O5. destruct (M c J) as [Mh Mw].
  unfold gotcha_free. replace (fst c + 8 - 8) with (fst c) by lia. rewrite (u64_small (fst c)) by (unfold two64; lia). rewrite u64_small by (unfold two64; lia).
  destruct (Mw (fst c + 8)) as [w W]; [unfold ends; lia|apply mod_add; auto|]. rewrite (stw_ok _ _ _ _ W). cbn [bind]. eexists. split; [reflexivity|].
  assert (C' := chunks_perm _ _ P C). split; [|split; [auto|cbn [h_mem]; intros a Ha; apply set_word_neq; auto]].
  split; [auto|]. cbn [h_mem h_free h_maps h_pushes]. split; [|split; [|split]].
  - apply memok_set; auto; [eapply memok_perm; eauto|]. intros d Jd. apply (payload_header _ c d C'); [left; auto|auto].
  - split; [auto|]. exists (h_free h). split; [apply set_word_eq|]. eapply chain_frame; [|exact Ch]. intros d Jd. apply set_word_neq. intros E.
    cbn [app] in C'. apply chunks_cons in C' as (_ & D & C''). specialize (D d ltac:(apply in_app_iff; auto)).
    destruct (chunks_in _ d C'' ltac:(apply in_app_iff; auto)) as (Q1 & Q2 & Q3 & _). unfold disj, ends in D. lia.
  - cbn [length]. lia.
  - eapply Permutation_Forall; eauto.
Qed.

(** *** copying *)
Lemma copy_words_ok : forall n m dest src, 0 <= dest -> 0 <= src -> dest + 8 * Z.of_nat n <= half -> src + 8 * Z.of_nat n <= half -> dest mod 8 = 0 -> src mod 8 = 0 ->
  (dest + 8 * Z.of_nat n <= src \/ src + 8 * Z.of_nat n <= dest) ->
  (forall a, dest <= a < dest + 8 * Z.of_nat n -> a mod 8 = 0 -> exists v, m a = Some v) -> (forall a, src <= a < src + 8 * Z.of_nat n -> a mod 8 = 0 -> exists v, m a = Some v) ->
  exists m', copy_words n m dest src = Ok m' /\ (forall a, ~ dest <= a < dest + 8 * Z.of_nat n -> m' a = m a) /\
    (forall a, 0 <= a < 8 * Z.of_nat n -> a mod 8 = 0 -> m' (dest + a) = m (src + a)) /\ (forall a, (exists v, m a = Some v) -> exists v, m' a = Some v).
Proof.
  induction n as [|n IH]; intros m dest src D0 S0 Dh Sh D8 S8 Dj Md Ms; cbn [copy_words].
  - exists m. split; [auto|]. split; [auto|]. split; [intros a Ha; lia|auto].
  - destruct (Ms src ltac:(lia) S8) as [v V]. unfold ldw. rewrite V. cbn [bind]. destruct (Md dest ltac:(lia) D8) as [w W]. rewrite (stw_ok _ _ _ _ W). cbn [bind].
    rewrite !u64_small by (unfold two64; lia).
    destruct (IH (set_word m dest v) (dest + 8) (src + 8)) as (m' & E & F1 & F2 & F3); try lia; try (apply mod_add; auto; fail).
    + intros a Ha A8. apply set_word_some. apply Md; [lia|auto].
    + intros a Ha A8. apply set_word_some. apply Ms; [lia|auto].
    + exists m'. split; [auto|]. split; [|split].
      * intros a Ha. rewrite F1 by lia. apply set_word_neq. lia.
      * intros a Ha A8. destruct (Z.eq_dec a 0) as [->|N].
        -- rewrite F1 by lia. rewrite !Z.add_0_r. rewrite set_word_eq. auto.
        -- pose proof (mod8_le 0 a eq_refl A8 ltac:(lia)). replace (dest + a) with (dest + 8 + (a - 8)) by lia.
           rewrite F2; [|lia|apply mod_sub; auto]. replace (src + 8 + (a - 8)) with (src + a) by lia. apply set_word_neq. lia.
      * intros a Ha. apply F3. apply set_word_some. auto.
Qed.
