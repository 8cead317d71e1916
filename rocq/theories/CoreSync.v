(** Redirection of relocation slots: exact effect of update_all_library_gots, and the invariant that every
    tracked library that counts as up to date is redirected. *)
From Verif Require Import Base ListFacts HashModel HashProofs SpecHash HashTrace ElfModel ToolModel CoreModel SpecCore SpecRun SpecSync ToolProofs CoreMaps CoreRel CoreLib CoreStep CoreWrap CoreLoop CoreMain.
From Coq Require Import Permutation Sorted.

(** *** one library's relocations *)
Section Bindings.
Context (ibs : list ibind) (addr : Z) (t : htable cstr nat) (tf : cstr -> option nat).
Context (HT : smap t tf) (Hb : forall n b, tf n = Some b -> (b < length ibs)%nat).

Lemma ulb_keep n b x : tf n = Some b -> forall rels mem log mem' log', update_lib_bindings ibs addr t rels mem log = Ok (mem', log') ->
  (forall off' n', In (off', n') rels -> x = u64 (addr + off') -> n' = n) -> mem x = wrp ibs b -> mem' x = wrp ibs b.
Proof.
  intros Hn. induction rels as [|[off m] r IH]; intros mem log mem' log' E HF Hx; cbn [update_lib_bindings] in E; [congruence|].
  rewrite (smap_lookup t tf m HT) in E. cbn [bind] in E.
  assert (HF' : forall off' n', In (off', n') r -> x = u64 (addr + off') -> n' = n) by (intros; eapply HF; [right|]; eauto).
  destruct (tf m) as [b'|] eqn:Em; [|eapply IH; eauto].
  destruct (nth_error_lt_Some _ _ (Hb _ _ Em)) as [ib Eib]. rewrite (deref_Ok _ _ _ Eib) in E. cbn [bind] in E.
  eapply IH; [exact E|exact HF'|]. unfold fupd. destruct (Z.eqb_spec x (u64 (addr + off))) as [Ex|_]; [|auto].
  assert (m = n) by (eapply HF; [left; reflexivity|auto]). subst m. assert (b' = b) by congruence. subst b'. unfold wrp. rewrite Eib. reflexivity.
Qed.

Lemma ulb_exact : forall rels mem log,
  (forall o o' n n', In (o, n) rels -> In (o', n') rels -> u64 (addr + o) = u64 (addr + o') -> n = n') ->
  exists mem' log', update_lib_bindings ibs addr t rels mem log = Ok (mem', log') /\
    (forall off n b, In (off, n) rels -> tf n = Some b -> mem' (u64 (addr + off)) = wrp ibs b) /\
    (forall x, (forall off n, In (off, n) rels -> x = u64 (addr + off) -> tf n = None) -> mem' x = mem x).
Proof.
  induction rels as [|[off m] r IH]; intros mem log HF; cbn [update_lib_bindings].
  - exists mem, log. split; [reflexivity|]. split; [intros ? ? ? []|auto].
  - rewrite (smap_lookup t tf m HT). cbn [bind].
    assert (HF' : forall o o' n n', In (o, n) r -> In (o', n') r -> u64 (addr + o) = u64 (addr + o') -> n = n') by (intros; eapply HF; [right|right|]; eauto).
    destruct (tf m) as [b|] eqn:Em.
    + destruct (nth_error_lt_Some _ _ (Hb _ _ Em)) as [ib Eib]. rewrite (deref_Ok _ _ _ Eib). cbn [bind].
      destruct (IH (fupd mem (u64 (addr + off)) (ub_wrapper (ib_user ib))) (log ++ [PStore (u64 (addr + off)) (ub_wrapper (ib_user ib))]) HF') as (mem' & log' & E & A & B). exists mem', log'. split; [auto|]. split.
      * intros o n b' [Ho|Ho] Hn; [|eauto]. injection Ho as <- <-. assert (b' = b) by congruence. subst b'.
        eapply ulb_keep; [exact Em|exact E| |].
        -- intros o' n' Hi Ex. symmetry. eapply HF; [left; reflexivity|right; exact Hi|auto].
        -- unfold fupd. rewrite Z.eqb_refl. unfold wrp. rewrite Eib. reflexivity.
      * intros x Hx. rewrite B; [|intros; eapply Hx; [right|]; eauto]. unfold fupd. destruct (Z.eqb_spec x (u64 (addr + off))) as [Ex|_]; [|auto].
        exfalso. assert (tf m = None) by (eapply Hx; [left; reflexivity|auto]). congruence.
    + destruct (IH mem log HF') as (mem' & log' & E & A & B). exists mem', log'. split; [auto|]. split.
      * intros o n b' [Ho|Ho] Hn; [|eauto]. injection Ho as <- <-. congruence.
      * intros x Hx. apply B. intros; eapply Hx; [right|]; eauto.
Qed.
End Bindings.

(** *** tracked libraries *)
Lemma nodup_steady all : NoDup (map key_of all) -> steady all.
Proof.
  intros H m m'. revert H. induction all as [|x r IH]; cbn; [tauto|]. intros H. inversion H; subst. intros [->|A] [->|B] E; auto.
  - exfalso. apply H2. rewrite E. apply in_map. auto.
  - exfalso. apply H2. rewrite <- E. apply in_map. auto.
Qed.
Lemma nodup_apart all : NoDup (map (fun m => link_map_hash (key_of m)) all) -> apart all.
Proof.
  intros H m m'. revert H. induction all as [|x r IH]; cbn; [tauto|]. intros H. inversion H; subst. intros [->|A] [->|B] E; auto.
  - exfalso. apply H2. rewrite E. apply (in_map (fun m => link_map_hash (key_of m))). auto.
  - exfalso. apply H2. rewrite <- E. apply (in_map (fun m => link_map_hash (key_of m))). auto.
Qed.
Definition lkey_eqb (a b : lkey) : bool := (fst a =? fst b) && cstr_eqb (snd a) (snd b).
Lemma lkey_eqb_ok : eqb_ok lkey_eqb.
Proof.
  intros [a s] [b r]. unfold lkey_eqb. cbn [fst snd]. rewrite andb_true_iff, Z.eqb_eq, (cstr_eqb_ok s r). split; [intros [-> ->]; auto|intros H; injection H; auto].
Qed.

Section Track.
Context (e : env) (ex : lmap -> cstr -> option Z) (rl : lmap -> list (Z * cstr)).
(** all libraries of the history; their hash values are distinct *)
Context (all : list lmap) (HND : apart all).

Definition lkeys (k : lkey) : Prop := In k (map key_of all).
Lemma all_inj m m' : In m all -> In m' all -> link_map_hash (key_of m) = link_map_hash (key_of m') -> key_of m = key_of m'.
Proof. exact (HND m m'). Qed.

Lemma lcmp_ok : cmp_ok lkeys link_map_hash link_map_cmp.
Proof.
  intros a b Pa Pb H. apply in_map_iff in Pa. destruct Pa as (m & <- & Hm). apply in_map_iff in Pb. destruct Pb as (m' & <- & Hm').
  assert (E : key_of m = key_of m') by (apply all_inj; auto). split; [auto|]. intros _. rewrite E. unfold link_map_cmp. rewrite Z.ltb_irrefl. reflexivity.
Qed.

Notation lkm := (kmap lkeys link_map_hash link_map_cmp lkey_eqb).

Record linv (l : lstate) (f : lkey -> option nat) : Prop := {
  li_map : lkm (l_table l) f;
  li_rec : forall k i, f k = Some i -> exists lb, nth_error (l_heap l) i = Some lb /\ lb_map lb = fst k;
  li_inj : forall k k' i, f k = Some i -> f k' = Some i -> k = k';
  li_gen : forall i lb, nth_error (l_heap l) i = Some lb -> 0 <= lb_gen lb <= l_gen l }.

(** generation recorded for a library; 0, as for a new one, if it is not tracked *)
Definition genof (l : lstate) (f : lkey -> option nat) (m : lmap) : Z :=
  match f (key_of m) with
  | Some i => match nth_error (l_heap l) i with Some lb => lb_gen lb | None => 0 end
  | None => 0
  end.

Lemma genof_le l f m : linv l f -> 0 <= l_gen l -> 0 <= genof l f m <= l_gen l.
Proof.
  intros L H. unfold genof. destruct (f (key_of m)) as [i|]; [|lia]. destruct (nth_error (l_heap l) i) as [lb|] eqn:E; [|lia]. eapply li_gen; eauto.
Qed.

Lemma lkeys_of m : In m all -> lkeys (key_of m).
Proof. intros H. apply in_map. auto. Qed.

Lemma upd_lprev h j v i lb : nth_error (upd h j (set_lprev v)) i = Some lb ->
  exists lb0, nth_error h i = Some lb0 /\ lb_gen lb = lb_gen lb0 /\ lb_map lb = lb_map lb0.
Proof.
  rewrite nth_error_upd. destruct (Nat.eqb j i) eqn:E; [|eauto]. apply Nat.eqb_eq in E. subst. destruct (nth_error h i); [|discriminate].
  cbn. intros H. injection H as <-. eexists. split; [reflexivity|]. auto.
Qed.

Lemma track_exact l f m : linv l f -> In m all -> 0 <= l_gen l ->
  exists l' i f', track_library l m = Ok (l', i) /\ linv l' f' /\ l_gen l' = l_gen l /\ f' (key_of m) = Some i /\
    (forall m', genof l' f' m' = genof l f m') /\ (forall k j, f k = Some j -> f' k = Some j).
Proof.
  intros L Hm Hg. destruct L as [L1 L2 L3 L4]. unfold track_library, get_library.
  rewrite (kmap_lookup _ _ _ lcmp_ok _ lkey_eqb_ok _ _ _ L1 (lkeys_of m Hm)). cbn [bind].
  destruct (f (key_of m)) as [i|] eqn:Ef.
  - exists l, i, f. split; [reflexivity|]. split; [constructor; auto|]. auto.
  - unfold add_library.
    destruct (kmap_add _ _ _ lcmp_ok _ lkey_eqb_ok _ _ (key_of m) (length (l_heap l)) L1 (lkeys_of m Hm) Ef) as (t & Et & Lt).
    rewrite Et. cbn [bind]. eexists _, _, _. split; [reflexivity|].
    set (h := match l_list l with Some h => upd (l_heap l) h (set_lprev (Some (length (l_heap l)))) | None => l_heap l end).
    set (nl := mkLibr (lm_ptr m) (l_list l) None 0 false).
    assert (Eh : length h = length (l_heap l)) by (unfold h; destruct (l_list l); [apply upd_length|reflexivity]).
    assert (Hh : forall i lb, nth_error h i = Some lb -> exists lb0, nth_error (l_heap l) i = Some lb0 /\ lb_gen lb = lb_gen lb0 /\ lb_map lb = lb_map lb0).
    { intros i lb. unfold h. destruct (l_list l); [apply upd_lprev|eauto]. }
    assert (Hh' : forall i lb0, nth_error (l_heap l) i = Some lb0 -> exists lb, nth_error h i = Some lb /\ lb_gen lb = lb_gen lb0 /\ lb_map lb = lb_map lb0).
    { intros i lb0 Hi. destruct (nth_error_lt_Some h i) as [lb Hlb]; [rewrite Eh; eapply nth_error_Some_lt; eauto|]. destruct (Hh _ _ Hlb) as (lb1 & A & B).
      exists lb. split; [auto|]. congruence. }
    assert (Hlt : forall k i, f k = Some i -> (i < length (l_heap l))%nat).
    { intros k i Hk. destruct (L2 _ _ Hk) as (lb & A & _). eapply nth_error_Some_lt; eauto. }
    assert (Hnew : nth_error (h ++ [nl]) (length (l_heap l)) = Some nl).
    { rewrite nth_error_app2 by lia. rewrite Eh, Nat.sub_diag. reflexivity. }
    assert (Hk : forall k, kupd lkey_eqb f (key_of m) (Some (length (l_heap l))) k = if lkey_eqb k (key_of m) then Some (length (l_heap l)) else f k) by reflexivity.
    split; [constructor; cbn [l_table l_heap l_gen]|].
    + exact Lt.
    + intros k i. rewrite Hk. destruct (lkey_eqb k (key_of m)) eqn:E; intros Hki.
      * injection Hki as <-. exists nl. split; [auto|]. apply lkey_eqb_ok in E. subst k. reflexivity.
      * destruct (L2 _ _ Hki) as (lb0 & A & B). destruct (Hh' _ _ A) as (lb & C & _ & D). exists lb. split; [|congruence].
        rewrite nth_error_app1; [auto|]. rewrite Eh. eauto.
    + intros k k' i. rewrite !Hk. destruct (lkey_eqb k (key_of m)) eqn:E; destruct (lkey_eqb k' (key_of m)) eqn:E'; intros A B.
      * apply lkey_eqb_ok in E. apply lkey_eqb_ok in E'. congruence.
      * injection A as <-. apply Hlt in B. lia.
      * injection B as <-. apply Hlt in A. lia.
      * eauto.
    + intros i lb Hi. destruct (le_lt_dec (length h) i) as [Hle|Hlt'].
      * rewrite nth_error_app2 in Hi by auto. destruct (i - length h)%nat as [|k]; [injection Hi as <-; cbn; lia|destruct k; discriminate].
      * rewrite nth_error_app1 in Hi by auto. destruct (Hh _ _ Hi) as (lb0 & A & -> & _). eauto.
    + cbn [l_gen]. split; [reflexivity|]. split; [rewrite Hk; rewrite (proj2 (lkey_eqb_ok _ _) eq_refl); reflexivity|]. split.
      * intros m'. unfold genof. cbn [l_heap]. rewrite Hk. destruct (lkey_eqb (key_of m') (key_of m)) eqn:E.
        -- rewrite Hnew. apply lkey_eqb_ok in E. rewrite E, Ef. reflexivity.
        -- destruct (f (key_of m')) as [i|] eqn:Ei; [|reflexivity]. rewrite nth_error_app1 by (rewrite Eh; eauto).
           destruct (L2 _ _ Ei) as (lb0 & A & _). destruct (Hh' _ _ A) as (lb & C & D & _). rewrite C, A. auto.
      * intros k j Hj. rewrite Hk. destruct (lkey_eqb k (key_of m)) eqn:E; [|auto]. apply lkey_eqb_ok in E. congruence.
Qed.

Lemma tracks_exact maps l l' : tracks maps l l' -> (forall m, In m maps -> In m all) -> forall f, linv l f -> 0 <= l_gen l ->
  exists f', linv l' f' /\ l_gen l' = l_gen l /\ forall m', genof l' f' m' = genof l f m'.
Proof.
  induction 1 as [l|l m l1 i l' Hm E T IH]; intros Hin f L Hg; [eauto|].
  destruct (track_exact l f m L (Hin m Hm) Hg) as (l2 & j & f2 & E2 & L2 & G2 & _ & GO & _). assert (l2 = l1) by congruence. subst l2.
  destruct (IH Hin f2 L2) as (f' & L' & G' & GO'); [lia|]. exists f'. split; [auto|]. split; [congruence|]. intros m'. rewrite GO'. auto.
Qed.

(** whatever the table of bindings, libraries stay tracked *)
Lemma update_got_linv ibs t m rest l f p l' p' : In m all -> linv l f -> 0 <= l_gen l -> update_library_got e ibs t m rest (l, p) = Ok (l', p') ->
  exists f', linv l' f' /\ l_gen l' = l_gen l /\ p_maps p' = p_maps p /\ p_filter p' = p_filter p.
Proof.
  intros Hm L Hg E. unfold update_library_got in E. destruct (track_exact l f m L Hm Hg) as (l1 & i & f1 & E1 & L1 & G1 & Fi & GO & _). rewrite E1 in E. cbn [bind] in E.
  destruct (filter_func (p_filter p) m rest) as [acc|]; [|discriminate]. cbn [bind] in E. destruct acc; cbn [negb] in E; [|exists f1; injection E as <- <-; auto].
  destruct (li_rec _ _ L1 _ _ Fi) as (lb & Elb & Emap). rewrite (deref_Ok _ _ _ Elb) in E. cbn [bind] in E.
  destruct (lb_gen lb =? l_gen l1); [exists f1; injection E as <- <-; auto|].
  destruct (if lb_writable lb then _ else _) as [[heap prot]|] eqn:HP in E; [|discriminate]. cbn [bind] in E.
  assert (Hheap : length heap = length (l_heap l1) /\ forall j x, nth_error heap j = Some x -> exists x0, nth_error (l_heap l1) j = Some x0 /\ lb_gen x = lb_gen x0 /\ lb_map x = lb_map x0).
  { destruct (lb_writable lb); [injection HP as <- _; split; [auto|]; eauto|]. destruct (mark_got_writable _ _ _) as [calls|]; [|discriminate]. cbn [bind] in HP. injection HP as <- _.
    split; [apply upd_length|]. intros j x. rewrite nth_error_upd. destruct (Nat.eqb i j) eqn:E2; [|eauto].
    apply Nat.eqb_eq in E2. subst. rewrite Elb. cbn. intros Hx. injection Hx as <-. exists lb. auto. }
  destruct Hheap as [Hlen Hheap]. destruct (for_each_pltrel m) as [rels|]; [|discriminate]. cbn [bind] in E.
  destruct (match rels with None => _ | Some _ => _ end) as [[mem log]|] in E; [|discriminate]. cbn [bind] in E. injection E as <- <-.
  exists f1. cbn [l_gen p_maps p_filter]. split; [|auto].
  assert (Hup : forall j x, nth_error (upd heap i (set_lgen (l_gen l1))) j = Some x -> exists x0, nth_error (l_heap l1) j = Some x0 /\ lb_map x = lb_map x0 /\
     lb_gen x = if Nat.eqb i j then l_gen l1 else lb_gen x0).
  { intros j x. rewrite nth_error_upd. destruct (Nat.eqb i j) eqn:E2.
    - destruct (nth_error heap j) as [x1|] eqn:E3; [|discriminate]. cbn. intros Hx. injection Hx as <-. destruct (Hheap _ _ E3) as (x0 & A & B & C). exists x0. auto.
    - intros Hx. destruct (Hheap _ _ Hx) as (x0 & A & B & C). exists x0. auto. }
  constructor; cbn [l_table l_heap l_gen].
  - apply L1.
  - intros k j Hk. destruct (li_rec _ _ L1 _ _ Hk) as (x0 & A & B).
    destruct (nth_error_lt_Some (upd heap i (set_lgen (l_gen l1))) j) as [x C]; [rewrite upd_length, Hlen; eapply nth_error_Some_lt; eauto|].
    destruct (Hup _ _ C) as (x1 & D & D' & _). exists x. split; [auto|]. congruence.
  - apply L1.
  - intros j x Hx. destruct (Hup _ _ Hx) as (x0 & A & _ & ->). pose proof (li_gen _ _ L1 _ _ A). destruct (Nat.eqb i j); lia.
Qed.

Lemma update_gots_linv ibs t : forall maps l f p l' p', (forall m, In m maps -> In m all) -> linv l f -> 0 <= l_gen l -> update_gots e ibs t maps (l, p) = Ok (l', p') ->
  exists f', linv l' f' /\ l_gen l' = l_gen l /\ p_maps p' = p_maps p /\ p_filter p' = p_filter p.
Proof.
  induction maps as [|m r IH]; intros l f p l' p' Hin L Hg E; cbn [update_gots] in E; [injection E as <- <-; eauto|].
  destruct (update_library_got e ibs t m r (l, p)) as [[l1 p1]|] eqn:E1; [|discriminate]. cbn [bind] in E.
  destruct (update_got_linv ibs t m r l f p l1 p1 (Hin m (or_introl eq_refl)) L Hg E1) as (f1 & L1 & G1 & P1 & F1).
  destruct (IH l1 f1 p1 l' p') as (f2 & L2 & G2 & P2 & F2); auto; [intros; apply Hin; right; auto|lia|]. exists f2. split; [auto|]. split; [congruence|split; congruence].
Qed.

(** *** update_all_library_gots *)
Context (HL : forall m, In m all -> lib_ok e ex rl m).
Definition slots_fun (maps : list lmap) : Prop :=
  forall m m' n n' x, In m maps -> In m' maps -> slot rl m n x -> slot rl m' n' x -> n = n'.

Section Update.
Context (ibs : list ibind) (t : htable cstr nat) (tf : cstr -> option nat).
Context (HT : smap t tf) (Hb : forall n b, tf n = Some b -> (b < length ibs)%nat).

(** effect on memory of updating the libraries of [maps] *)
Record upd_ok (fl : lfilter) (maps : list lmap) (stale : lmap -> Prop) (mem mem' : Z -> Z) : Prop := {
  uo_new : forall m n x b, accepted fl maps m -> stale m -> slot rl m n x -> tf n = Some b -> mem' x = wrp ibs b;
  uo_keep : forall n x b, (forall m n', In m maps -> slot rl m n' x -> n' = n) -> tf n = Some b -> mem x = wrp ibs b -> mem' x = wrp ibs b;
  uo_other : forall x, (forall m n, In m maps -> slot rl m n x -> tf n = None) -> mem' x = mem x }.

Lemma update_library_got_exact m rest l f p : In m all -> linv l f -> 0 <= l_gen l -> slots_fun [m] ->
  exists l' p' f', update_library_got e ibs t m rest (l, p) = Ok (l', p') /\ linv l' f' /\ l_gen l' = l_gen l /\
    p_maps p' = p_maps p /\ p_filter p' = p_filter p /\
    (forall m', In m' all -> key_of m' <> key_of m -> genof l' f' m' = genof l f m') /\
    (genof l' f' m = genof l f m \/ genof l' f' m = l_gen l) /\
    (filter_func (p_filter p) m rest = Ok true -> genof l f m <> l_gen l -> forall n x b, slot rl m n x -> tf n = Some b -> p_mem p' x = wrp ibs b) /\
    (forall n x b, (forall n', slot rl m n' x -> n' = n) -> tf n = Some b -> p_mem p x = wrp ibs b -> p_mem p' x = wrp ibs b) /\
    (forall x, (forall n, slot rl m n x -> tf n = None) -> p_mem p' x = p_mem p x).
Proof.
  intros Hm L Hg SF. unfold update_library_got. destruct (track_exact l f m L Hm Hg) as (l1 & i & f1 & E & L1 & G1 & Fi & GO & _). rewrite E. cbn [bind].
  destruct (filter_ok e ex rl m (p_filter p) rest (HL m Hm)) as [acc Ea]. rewrite Ea. cbn [bind]. 
  destruct acc; cbn [negb].
  2:{ exists l1, p, f1. split; [reflexivity|]. spl; auto; congruence. }
  destruct (li_rec _ _ L1 _ _ Fi) as (lb & Elb & Emap). rewrite (deref_Ok _ _ _ Elb). cbn [bind].
  assert (Egen : genof l f m = lb_gen lb) by (rewrite <- GO; unfold genof; rewrite Fi, Elb; reflexivity).
  destruct (Z.eqb_spec (lb_gen lb) (l_gen l1)) as [Eg|Ng].
  { exists l1, p, f1. split; [reflexivity|]. spl; auto. intros _ H. exfalso. apply H. congruence. }
  assert (HP : exists heap prot, (if lb_writable lb then Ok (l_heap l1, p_log p)
         else do calls <- mark_got_writable (e_ps e) (e_phdrs e (p_maps p)) m;
              Ok (upd (l_heap l1) i set_lwritable, p_log p ++ map PProtect calls)) = Ok (heap, prot) /\
         length heap = length (l_heap l1) /\
         forall j x, nth_error heap j = Some x -> exists x0, nth_error (l_heap l1) j = Some x0 /\ lb_gen x = lb_gen x0 /\ lb_map x = lb_map x0).
  { destruct (lb_writable lb); [eexists _, _; split; [reflexivity|eauto]|]. destruct (lo_prot _ _ _ _ (HL m Hm) (e_phdrs e (p_maps p))) as [calls ->]. cbn [bind].
    eexists _, _. split; [reflexivity|]. split; [apply upd_length|]. intros j x. rewrite nth_error_upd. destruct (Nat.eqb i j) eqn:E1; [|eauto].
    apply Nat.eqb_eq in E1. subst. rewrite Elb. cbn. intros Hx. injection Hx as <-. exists lb. auto. }
  destruct HP as (heap & prot & HP & Hlen & Hheap). rewrite HP. cbn [bind].
  destruct (lo_rels _ _ _ _ (HL m Hm)) as (r & Er & Erl). rewrite Er. cbn [bind].
  assert (HM : exists mem log, (match r with None => Ok (p_mem p, prot) | Some rs => update_lib_bindings ibs (lm_addr m) t rs (p_mem p) prot end) = Ok (mem, log) /\
     (forall n x b, slot rl m n x -> tf n = Some b -> mem x = wrp ibs b) /\
     (forall n x b, (forall n', slot rl m n' x -> n' = n) -> tf n = Some b -> p_mem p x = wrp ibs b -> mem x = wrp ibs b) /\
     (forall x, (forall n, slot rl m n x -> tf n = None) -> mem x = p_mem p x)).
  { destruct r as [rs|].
    - assert (Hsl : forall n x, slot rl m n x <-> exists off, In (off, n) rs /\ x = u64 (lm_addr m + off)) by (intros; unfold slot; rewrite Erl; tauto).
      destruct (ulb_exact ibs (lm_addr m) t tf HT Hb rs (p_mem p) prot) as (mem & log & A & B & C).
      { intros o o' n n' H1 H2 H3. eapply (SF m m n n' (u64 (lm_addr m + o))); [left; auto|left; auto|apply Hsl; eauto|apply Hsl; eauto]. }
      exists mem, log. split; [auto|]. split; [|split].
      + intros n x b Hs Hn. apply Hsl in Hs. destruct Hs as (off & H1 & ->). eauto.
      + intros n x b Hs Hn Hx. eapply ulb_keep; [exact HT|exact Hb|exact Hn|exact A| |exact Hx]. intros off n' H1 H2. apply Hs. apply Hsl. eauto.
      + intros x Hx. apply C. intros off n H1 H2. apply Hx. apply Hsl. eauto.
    - exists (p_mem p), prot. split; [auto|]. split; [|auto]. intros n x b (off & H & _). rewrite Erl in H. destruct H. }
  destruct HM as (mem & log & HM & M1 & M2 & M3). rewrite HM. cbn [bind].
  exists (mkLS (l_table l1) (upd heap i (set_lgen (l_gen l1))) (l_list l1) (l_gen l1)), (mkPS (p_maps p) mem log (p_filter p)), f1.
  split; [reflexivity|]. cbn [l_gen p_maps p_filter p_mem l_table l_heap].
  assert (Hup : forall j x, nth_error (upd heap i (set_lgen (l_gen l1))) j = Some x -> exists x0, nth_error (l_heap l1) j = Some x0 /\ lb_map x = lb_map x0 /\
     lb_gen x = if Nat.eqb i j then l_gen l1 else lb_gen x0).
  { intros j x. rewrite nth_error_upd. destruct (Nat.eqb i j) eqn:E1.
    - destruct (nth_error heap j) as [x1|] eqn:E2; [|discriminate]. cbn. intros Hx. injection Hx as <-. destruct (Hheap _ _ E2) as (x0 & A & B & C). exists x0. auto.
    - intros Hx. destruct (Hheap _ _ Hx) as (x0 & A & B & C). exists x0. auto. }
  assert (Hup' : forall j x0, nth_error (l_heap l1) j = Some x0 -> exists x, nth_error (upd heap i (set_lgen (l_gen l1))) j = Some x).
  { intros j x0 Hj. apply nth_error_lt_Some. rewrite upd_length, Hlen. eapply nth_error_Some_lt; eauto. }
  spl; auto.
  - constructor; cbn [l_table l_heap l_gen].
    + apply L1.
    + intros k j Hk. destruct (li_rec _ _ L1 _ _ Hk) as (x0 & A & B). destruct (Hup' _ _ A) as (x & C). destruct (Hup _ _ C) as (x1 & D & D' & _).
      exists x. split; [auto|]. congruence.
    + apply L1.
    + intros j x Hx. destruct (Hup _ _ Hx) as (x0 & A & _ & ->). pose proof (li_gen _ _ L1 _ _ A). destruct (Nat.eqb i j); lia.
  - intros m' Hm' Hne. rewrite <- GO. unfold genof. cbn [l_heap]. destruct (f1 (key_of m')) as [j|] eqn:Ej; [|reflexivity].
    assert (i <> j). { intros ->. apply Hne. eapply li_inj; eauto. }
    destruct (li_rec _ _ L1 _ _ Ej) as (x0 & A & B). destruct (Hup' _ _ A) as (x & C). destruct (Hup _ _ C) as (x1 & D & D' & D'').
    rewrite C, A. rewrite D''. rewrite (proj2 (Nat.eqb_neq i j)) by auto. congruence.
  - right. unfold genof. cbn [l_heap]. rewrite Fi. destruct (Hup' _ _ Elb) as (x & C). destruct (Hup _ _ C) as (x1 & D & D' & D''). rewrite C, D'', Nat.eqb_refl. auto.
Qed.

Lemma update_gots_exact : forall maps l f p, (forall m, In m maps -> In m all) -> NoDup (map key_of maps) -> linv l f -> 0 <= l_gen l -> slots_fun maps ->
  exists l' p' f', update_gots e ibs t maps (l, p) = Ok (l', p') /\ linv l' f' /\ l_gen l' = l_gen l /\
    p_maps p' = p_maps p /\ p_filter p' = p_filter p /\
    (forall m, In m all -> ~ In (key_of m) (map key_of maps) -> genof l' f' m = genof l f m) /\
    upd_ok (p_filter p) maps (fun m => genof l f m <> l_gen l) (p_mem p) (p_mem p').
Proof.
  induction maps as [|m r IH]; intros l f p Hin Hnd L Hg SF; cbn [update_gots].
  - exists l, p, f. split; [reflexivity|]. spl; auto. constructor; auto. intros m n x b (pre & rest & H & _). destruct pre; discriminate.
  - assert (SF1 : slots_fun [m]) by (intros a b n n' x [<-|[]] [<-|[]]; apply SF; left; auto).
    assert (SF2 : slots_fun r) by (intros a b n n' x A B; apply SF; right; auto).
    inversion Hnd as [|? ? Hmr Hndr]; subst.
    destruct (update_library_got_exact m r l f p (Hin m (or_introl eq_refl)) L Hg SF1) as (l1 & p1 & f1 & E1 & L1 & G1 & P1 & F1 & GO1 & _ & A1 & B1 & C1).
    rewrite E1. cbn [bind].
    destruct (IH l1 f1 p1) as (l2 & p2 & f2 & E2 & L2 & G2 & P2 & F2 & GO2 & [A2 B2 C2]); auto; [intros; apply Hin; right; auto|lia|].
    exists l2, p2, f2. split; [auto|]. split; [auto|]. split; [congruence|]. split; [congruence|]. split; [congruence|]. split.
    { intros m' Hm' Hnot. rewrite GO2; [apply GO1; auto; intros Ek; apply Hnot; left; auto|auto|]. intros H. apply Hnot. right. auto. }
    rewrite F1, G1 in A2. constructor.
    + intros m' n x b Hacc Hst Hs Hn. destruct Hacc as (pre & rest & Es & Ef). destruct pre as [|y pre]; cbn in Es; injection Es as -> ->.
      * eapply B2; [|exact Hn|eapply A1; eauto]. intros m'' n' H1 H2. eapply SF; [right; exact H1|left; reflexivity|exact H2|exact Hs].
      * eapply A2; [exists pre, rest; eauto| |exact Hs|exact Hn].
        rewrite GO1; [auto|apply Hin; right; apply in_elt|]. intros Ek. apply Hmr. rewrite <- Ek. apply in_map. apply in_elt.
    + intros n x b Hs Hn Hx. eapply B2; [|exact Hn|].
      * intros m' n' H1 H2. eapply Hs; [right; exact H1|exact H2].
      * eapply B1; [|exact Hn|exact Hx]. intros n' H. eapply Hs; [left; reflexivity|exact H].
    + intros x Hx. rewrite C2; [apply C1|]; intros; eapply Hx; eauto; [left; auto|right; auto].
Qed.
End Update.
End Track.
