(** Tracked libraries, symbol lookup along the link map, and GOT updates: these never fault, whatever the
    tables contain, and write only relocation slots. *)
From Verif Require Import Base ListFacts HashModel HashProofs SpecHash HashTrace ElfModel ToolModel CoreModel SpecCore SpecRun ToolProofs CoreMaps CoreRel.
From Coq Require Import Permutation.

(** the library table is well formed and points into the heap of libraries *)
Definition lbase (l : lstate) : Prop :=
  exists li c, ht_inv link_map_hash link_map_cmp (l_table l) li c /\ forall k i, In (k, i) c -> (i < length (l_heap l))%nat.

(** [l'] is [l] after tracking some of [maps] *)
Inductive tracks (maps : list lmap) : lstate -> lstate -> Prop :=
| tr_refl l : tracks maps l l
| tr_step l m l1 i l' : In m maps -> track_library l m = Ok (l1, i) -> tracks maps l1 l' -> tracks maps l l'.

Lemma track_base l m : lbase l ->
  exists l' i, track_library l m = Ok (l', i) /\ lbase l' /\ (i < length (l_heap l'))%nat /\ l_gen l' = l_gen l.
Proof.
  intros (li & c & I & Hc). unfold track_library, get_library.
  destruct (lookup_hashtable_spec (l_table l) li c (key_of m) I) as [(k' & i & H & Hin & _)|[H _]]; rewrite H; cbn [bind].
  - exists l, i. split; [reflexivity|]. split; [exists li, c; auto|]. split; [eauto|reflexivity].
  - unfold add_library. destruct (addto_spec (l_table l) li c (key_of m) (length (l_heap l)) I) as (t & l' & c' & Ht & I' & Hp & _).
    rewrite Ht. cbn [bind]. eexists _, _. split; [reflexivity|]. cbn [l_heap l_table l_gen].
    set (h := match l_list l with Some h => upd (l_heap l) h (set_lprev (Some (length (l_heap l)))) | None => l_heap l end).
    assert (Eh : length h = length (l_heap l)) by (unfold h; destruct (l_list l); [apply upd_length|reflexivity]).
    split; [|split; [rewrite app_length, Eh; cbn; lia|reflexivity]].
    exists l', ((key_of m, length (l_heap l)) :: c'). cbn [l_table l_heap]. split; [auto|].
    intros k i Hi. rewrite app_length, Eh. cbn [length]. destruct Hi as [E|Hi]; [injection E as _ <-; lia|].
    apply (Permutation_in _ (Permutation_sym Hp)) in Hi. apply Hc in Hi. lia.
Qed.

Lemma tracks_base maps l l' : tracks maps l l' -> lbase l -> lbase l' /\ l_gen l' = l_gen l.
Proof.
  induction 1 as [|l m l1 i l' Hm H T IH]; intros B; [auto|].
  destruct (track_base l m B) as (l2 & j & E & B2 & _ & G). rewrite E in H. injection H as -> _.
  destruct (IH B2) as [B3 G3]. split; [auto|congruence].
Qed.

Lemma tracks_incl maps maps' l l' : (forall m, In m maps -> In m maps') -> tracks maps l l' -> tracks maps' l l'.
Proof. intros H. induction 1; [constructor|]. econstructor; eauto. Qed.
Lemma tracks_trans maps l1 l2 l3 : tracks maps l1 l2 -> tracks maps l2 l3 -> tracks maps l1 l3.
Proof. induction 1; [auto|]. intros. econstructor; eauto. Qed.

Lemma prepare_loop_spec e ex rl maps n : forall l, lbase l -> (forall m, In m maps -> lib_ok e ex rl m) ->
  exists l', prepare_loop e maps n l = Ok (l', first_export ex maps n) /\ tracks maps l l'.
Proof.
  induction maps as [|m r IH]; intros l B HL; cbn [prepare_loop first_export].
  - exists l. split; [reflexivity|constructor].
  - destruct (track_base l m B) as (l1 & i & E & B1 & _ & _). rewrite E. cbn [bind].
    rewrite (lo_export _ _ _ _ (HL m (or_introl eq_refl)) n). cbn [bind].
    destruct (ex m n) as [a|].
    + exists l1. split; [reflexivity|]. econstructor; [left; reflexivity|exact E|constructor].
    + destruct (IH l1 B1) as (l' & E' & T); [intros; apply HL; right; auto|]. exists l'. split; [auto|].
      econstructor; [left; reflexivity|exact E|]. eapply tracks_incl; [|exact T]. intros; right; auto.
Qed.

(** every entry (n, b) of the table points to a binding whose wrapper [w] satisfies [G n w] *)
Definition tbl_ok (ibs : list ibind) (t : htable cstr nat) (G : cstr -> Z -> Prop) : Prop :=
  exists l c, ht_inv strhash libc_strcmp t l c /\
    forall n b, In (n, b) c -> exists ib, nth_error ibs b = Some ib /\ G n (ub_wrapper (ib_user ib)).

(** what is added to the log stores only [v] at [x] with [G x v] *)
Definition wrote (G : Z -> Z -> Prop) (log log' : list pevent) : Prop :=
  exists evs, log' = log ++ evs /\ forall x v, In (PStore x v) evs -> G x v.
Lemma wrote_refl G log : wrote G log log.
Proof. exists []. rewrite app_nil_r. split; [auto|]. intros x v []. Qed.
Lemma wrote_trans G l1 l2 l3 : wrote G l1 l2 -> wrote G l2 l3 -> wrote G l1 l3.
Proof.
  intros (e1 & -> & H1) (e2 & -> & H2). exists (e1 ++ e2). rewrite app_assoc. split; [auto|]. intros x v H.
  apply in_app_or in H. destruct H; auto.
Qed.
Lemma wrote_incl (G H : Z -> Z -> Prop) l1 l2 : (forall x v, G x v -> H x v) -> wrote G l1 l2 -> wrote H l1 l2.
Proof. intros S (e1 & E & H1). exists e1. auto. Qed.
Lemma wrote_protect G log calls : wrote G log (log ++ map PProtect calls).
Proof. exists (map PProtect calls). split; [auto|]. intros x v H. apply in_map_iff in H. destruct H as (y & E & _). discriminate. Qed.
Lemma wrote_store (G : Z -> Z -> Prop) log x v : G x v -> wrote G log (log ++ [PStore x v]).
Proof. intros H. exists [PStore x v]. split; [auto|]. intros y w [E|[]]. injection E as <- <-. auto. Qed.

Lemma update_lib_bindings_base ibs addr t G : tbl_ok ibs t G -> forall rels mem log,
  exists mem' log', update_lib_bindings ibs addr t rels mem log = Ok (mem', log') /\
    (forall a, mem' a = mem a \/ exists off n, In (off, n) rels /\ a = u64 (addr + off) /\ G n (mem' a)) /\
    wrote (fun a v => exists off n, In (off, n) rels /\ a = u64 (addr + off) /\ G n v) log log'.
Proof.
  intros (l & c & I & HG). induction rels as [|[off n] r IH]; intros mem log; cbn [update_lib_bindings].
  { exists mem, log. split; [auto|]. split; [auto|apply wrote_refl]. }
  destruct (lookup_hashtable_spec t l c n I) as [(k' & b & H & Hin & Hm)|[H _]]; rewrite H; cbn [bind].
  - destruct (HG _ _ Hin) as (ib & E & Hg). rewrite (deref_Ok _ _ _ E). cbn [bind].
    destruct Hm as [_ Hm]. apply libc_strcmp_eq0 in Hm. subst k'.
    destruct (IH (fupd mem (u64 (addr + off)) (ub_wrapper (ib_user ib))) (log ++ [PStore (u64 (addr + off)) (ub_wrapper (ib_user ib))])) as (mem' & log' & E' & Hm' & Hl').
    exists mem', log'. split; [auto|]. split.
    2:{ eapply wrote_trans; [apply wrote_store|eapply wrote_incl; [|exact Hl']].
        - exists off, n. split; [left; reflexivity|auto].
        - intros x v (o & m & A1 & A2 & A3). exists o, m. split; [right; auto|auto]. }
    intros a. destruct (Hm' a) as [Ha|(o & m & A1 & A2 & A3)].
    + unfold fupd in Ha. destruct (Z.eqb_spec a (u64 (addr + off))) as [E0|Hne]; [|auto].
      right. exists off, n. split; [left; reflexivity|]. split; [exact E0|]. rewrite Ha. auto.
    + right. exists o, m. split; [right; auto|auto].
  - destruct (IH mem log) as (mem' & log' & E' & Hm' & Hl'). exists mem', log'. split; [auto|]. split.
    2:{ eapply wrote_incl; [|exact Hl']. intros x v (o & m & A1 & A2 & A3). exists o, m. split; [right; auto|auto]. }
    intros a.
    destruct (Hm' a) as [Ha|(o & m & A1 & A2 & A3)]; [auto|]. right. exists o, m. split; [right; auto|auto].
Qed.

Lemma filter_ok e ex rl m f rest : lib_ok e ex rl m -> exists b, filter_func f m rest = Ok b.
Proof.
  intros L. destruct f as [|[s|]| |p]; cbn; eauto. destruct (lm_name m) as [nm|] eqn:E; [eauto|].
  exfalso. apply (lo_name _ _ _ _ L). auto.
Qed.

Lemma lbase_upd l t h ls g : lbase l -> t = l_table l -> length h = length (l_heap l) -> lbase (mkLS t h ls g).
Proof. intros (li & c & I & Hc) -> E. exists li, c. cbn. split; [auto|]. intros. rewrite E. eauto. Qed.

Lemma update_library_got_base e ex rl ibs t G m rest l p : tbl_ok ibs t G -> lib_ok e ex rl m -> lbase l ->
  exists l' p', update_library_got e ibs t m rest (l, p) = Ok (l', p') /\ lbase l' /\ l_gen l' = l_gen l /\
    p_maps p' = p_maps p /\ p_filter p' = p_filter p /\
    (forall a, p_mem p' a = p_mem p a \/
      (filter_func (p_filter p) m rest = Ok true /\ exists n, slot rl m n a /\ G n (p_mem p' a))) /\
    wrote (fun a v => filter_func (p_filter p) m rest = Ok true /\ exists n, slot rl m n a /\ G n v) (p_log p) (p_log p').
Proof.
  intros HT L B. unfold update_library_got. destruct (track_base l m B) as (l1 & i & E & B1 & Hi & Hg). rewrite E. cbn [bind].
  destruct (filter_ok e ex rl m (p_filter p) rest L) as [acc Ea]. rewrite Ea. cbn [bind].
  destruct acc; cbn [negb].
  2:{ exists l1, p. split; [reflexivity|]. auto 10 using wrote_refl. }
  destruct (nth_error_lt_Some _ _ Hi) as [lb Elb]. rewrite (deref_Ok _ _ _ Elb). cbn [bind].
  destruct (lb_gen lb =? l_gen l1).
  { exists l1, p. split; [reflexivity|]. auto 10 using wrote_refl. }
  set (S := fun a v => filter_func (p_filter p) m rest = Ok true /\ exists n, slot rl m n a /\ G n v).
  assert (HP : exists heap prot, (if lb_writable lb then Ok (l_heap l1, p_log p)
         else do calls <- mark_got_writable (e_ps e) (e_phdrs e (p_maps p)) m;
              Ok (upd (l_heap l1) i set_lwritable, p_log p ++ map PProtect calls)) = Ok (heap, prot) /\ length heap = length (l_heap l1) /\
              wrote S (p_log p) prot).
  { destruct (lb_writable lb); [eauto using wrote_refl|]. destruct (lo_prot _ _ _ _ L (e_phdrs e (p_maps p))) as [calls ->]. cbn [bind].
    eexists _, _. split; [reflexivity|]. split; [apply upd_length|apply wrote_protect]. }
  destruct HP as (heap & prot & HP & Hlen & Hw). rewrite HP. cbn [bind].
  destruct (lo_rels _ _ _ _ L) as (r & Er & Erl). rewrite Er. cbn [bind].
  assert (HM : exists mem log, (match r with None => Ok (p_mem p, prot) | Some rs => update_lib_bindings ibs (lm_addr m) t rs (p_mem p) prot end) = Ok (mem, log) /\
     (forall a, mem a = p_mem p a \/ exists n, slot rl m n a /\ G n (mem a)) /\ wrote S (p_log p) log).
  { destruct r as [rs|]; [|eauto 10]. destruct (update_lib_bindings_base ibs (lm_addr m) t G HT rs (p_mem p) prot) as (mem & log & A & A' & A'').
    exists mem, log. split; [auto|]. split.
    2:{ eapply wrote_trans; [exact Hw|]. eapply wrote_incl; [|exact A'']. intros x v (off & n & C1 & C2 & C3). split; [auto|]. exists n. split; [|auto].
        exists off. rewrite Erl. auto. }
    intros a. destruct (A' a) as [|(off & n & C1 & C2 & C3)]; [auto|]. right. exists n. split; [|auto].
    exists off. rewrite Erl. auto. }
  destruct HM as (mem & log & HM & HM' & HW). rewrite HM. cbn [bind]. eexists _, _. split; [reflexivity|].
  split; [eapply lbase_upd; [exact B1|reflexivity|rewrite upd_length; auto]|]. cbn [l_gen p_maps p_filter p_mem p_log].
  split; [auto|]. split; [auto|]. split; [auto|]. split; [|eapply wrote_incl; [|exact HW]; intros x v [_ H]; auto]. intros a. destruct (HM' a) as [|[n Hn]]; [auto|]. right. eauto.
Qed.

Lemma update_gots_base e ex rl ibs t G : tbl_ok ibs t G -> forall maps l p, (forall m, In m maps -> lib_ok e ex rl m) -> lbase l ->
  exists l' p', update_gots e ibs t maps (l, p) = Ok (l', p') /\ lbase l' /\ l_gen l' = l_gen l /\
    p_maps p' = p_maps p /\ p_filter p' = p_filter p /\
    (forall a, p_mem p' a = p_mem p a \/
      exists pre m rest n, maps = pre ++ m :: rest /\ filter_func (p_filter p) m rest = Ok true /\ slot rl m n a /\ G n (p_mem p' a)) /\
    wrote (fun a v => exists pre m rest n, maps = pre ++ m :: rest /\ filter_func (p_filter p) m rest = Ok true /\ slot rl m n a /\ G n v) (p_log p) (p_log p').
Proof.
  intros HT. induction maps as [|m r IH]; intros l p HL B; cbn [update_gots].
  - exists l, p. split; [reflexivity|]. auto 10 using wrote_refl.
  - destruct (update_library_got_base e ex rl ibs t G m r l p HT (HL m (or_introl eq_refl)) B) as (l1 & p1 & E1 & B1 & G1 & M1 & F1 & W1 & U1).
    rewrite E1. cbn [bind].
    destruct (IH l1 p1) as (l2 & p2 & E2 & B2 & G2 & M2 & F2 & W2 & U2); [intros; apply HL; right; auto|auto|].
    exists l2, p2. split; [auto|]. split; [auto|]. split; [congruence|]. split; [congruence|]. split; [congruence|]. split.
    2:{ eapply wrote_trans; [eapply wrote_incl; [|exact U1]|eapply wrote_incl; [|exact U2]].
        - intros x v (A1 & n & A2 & A3). exists [], m, r, n. auto.
        - intros x v (pre & m' & rest & n & A1 & A2 & A3 & A4). exists (m :: pre), m', rest, n. rewrite <- F1. subst r. auto. }
    intros a. destruct (W2 a) as [W|(pre & m' & rest & n & A1 & A2 & A3 & A4)].
    + destruct (W1 a) as [W'|(A1 & n & A2 & A3)]; [left; congruence|]. right. exists [], m, r, n. rewrite W. auto.
    + right. exists (m :: pre), m', rest, n. rewrite <- F1. subst r. auto.
Qed.
