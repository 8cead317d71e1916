(** The entries of a table without their links: what stores change of them. *)
From Verif Require Import Base ListFacts HashModel HashProofs SpecHash HashTrace HashMoments SpecMoments MomentProofs.
From Coq Require Import Permutation.

(** *** what matters of the entries: status, hash value, key and data *)
Section Cores.
Context {K D : Type}.
Definition ecore := (hstatus * Z * option K * option D)%type.
Definition st (x : ecore) := fst (fst (fst x)).
Definition hs (x : ecore) := snd (fst (fst x)).
Definition ky (x : ecore) := snd (fst x).
Definition dt (x : ecore) := snd x.
Definition core (e : hentry K D) : ecore := (he_status e, he_hash e, he_key e, he_data e).
Definition cores (t : htable K D) : list ecore := map core (ht_table t).
Lemma cores_nth t i e : nth_error (ht_table t) i = Some e -> nth_error (cores t) i = Some (core e).
Proof. intros H. unfold cores. rewrite nth_error_map, H. reflexivity. Qed.
Lemma cores_inv t i x : nth_error (cores t) i = Some x -> exists e, nth_error (ht_table t) i = Some e /\ x = core e.
Proof. unfold cores. rewrite nth_error_map. destruct (nth_error (ht_table t) i) as [e|]; [|discriminate]. intros E. injection E as <-. eauto. Qed.
Lemma cores_length t : length (cores t) = length (ht_table t).
Proof. apply map_length. Qed.
Lemma map_upd {A B} (g : A -> B) (f : A -> A) (f' : B -> B) (l : list A) i : (forall x, g (f x) = f' (g x)) -> map g (upd l i f) = upd (map g l) i f'.
Proof. intros H. revert i. induction l as [|x l IH]; intros [|i]; cbn [upd map]; try reflexivity; [rewrite H; reflexivity|rewrite IH; reflexivity]. Qed.

(** the effect of a store *)
Definition cstore (s : hstore K D) (C : list ecore) : list ecore :=
  match s with
  | SKey i v => upd C i (fun x => (st x, hs x, v, dt x))
  | SData i v => upd C i (fun x => (st x, hs x, ky x, v))
  | SHash i v => upd C i (fun x => (st x, v, ky x, dt x))
  | SStatus i v => upd C i (fun x => (v, hs x, ky x, dt x))
  | STable l => map core l
  | _ => C
  end.
Lemma cores_happly t s : cores (happly t s) = cstore s (cores t).
Proof.
  unfold cores. destruct s; cbn [happly set_arr ht_table cstore]; try reflexivity; try (apply map_upd; reflexivity); apply map_upd_same; reflexivity.
Qed.
Definition cstores (l : list (hstore K D)) (C : list ecore) : list ecore := fold_left (fun C s => cstore s C) l C.
Lemma cores_happlys l : forall t, cores (happlys l t) = cstores l (cores t).
Proof. induction l as [|s l IH]; intros t; [reflexivity|]. cbn [happlys fold_left cstores]. fold (happlys l (happly t s)). rewrite IH, cores_happly. reflexivity. Qed.
Lemma cstores_app a b C : cstores (a ++ b) C = cstores b (cstores a C).
Proof. apply fold_left_app. Qed.
Lemma links_cores l : Forall link_store l -> forall C, cstores l C = C.
Proof. induction 1 as [|s l H _ IH]; intros C; [reflexivity|]. cbn [cstores fold_left]. fold (cstores l (cstore s C)). rewrite IH. destruct s; try contradiction H; reflexivity. Qed.

Lemma four_links a b c d l C : Forall link_store l -> cstores (a :: b :: c :: d :: l) C = cstores [a; b; c; d] C.
Proof. intros F. change (a :: b :: c :: d :: l) with ([a; b; c; d] ++ l). rewrite cstores_app. apply links_cores. exact F. Qed.

(** entries that are not in use have the hash value 0 *)
Definition blank (t : htable K D) : Prop := forall x, In x (cores t) -> st x <> INUSE -> hs x = 0.
Lemma In_upd {A} (l : list A) i f y : In y (upd l i f) -> In y l \/ exists x, nth_error l i = Some x /\ y = f x.
Proof. revert i. induction l as [|x l IH]; intros [|i]; cbn [upd In nth_error]; auto; [intros [<-|H]; eauto|intros [<-|H]; auto]. destruct (IH i H) as [|]; auto. Qed.
Lemma insert_cores t k d h t' i : insert t k d h = Ok (t', i) -> cores t' = cores t \/ cores t' = upd (cores t) i (fun _ => (INUSE, h, Some k, Some d)).
Proof.
  intros E. pose proof (insert_stores_ok t k d h) as S. destruct (insert_stores t k d h) as [l|] eqn:El; [|congruence]. destruct S as (j & S). rewrite E in S. injection S as -> <-. rewrite cores_happlys.
  unfold insert_stores in El. unfold insert in E. destruct (ht_size t =? 0); [discriminate El|]. destruct (insert_probe _ _ _ _ _) as [[fr y]|]; cbn [bind] in *; [|discriminate El]. assert (y = i) by (injection E; auto). subst y.
  set (B := @app (hstore K D) [SNext i (ht_head t); SPrev i None] ((match ht_head t with Some h => [SPrev h (Some i)] | None => [] end) ++ [SHead (Some i); SCount (ht_count t + 1)])) in *.
  assert (LB : Forall link_store B) by (subst B; destruct (ht_head t); repeat constructor). destruct fr.
  - right. assert (X : l = [SKey i (Some k); SData i (Some d); SHash i h; SStatus i INUSE] ++ B) by (injection El as <-; reflexivity). rewrite X, cstores_app, (links_cores B LB). cbn [cstores fold_left cstore]. rewrite !upd_upd. reflexivity.
  - left. assert (X : l = B) by (injection El as <-; reflexivity). rewrite X. apply links_cores. exact LB.
Qed.
Lemma insert_blank t k d h t' i : insert t k d h = Ok (t', i) -> blank t -> blank t'.
Proof.
  intros E B x Hx S. destruct (insert_cores _ _ _ _ _ _ E) as [C|C]; rewrite C in Hx; [apply (B x Hx S)|]. apply In_upd in Hx as [Hx|(x0 & _ & ->)]; [apply (B x Hx S)|]. destruct S. reflexivity.
Qed.
Lemma fresh_blank n hf cmp : blank (mkHT n 0 hf cmp (repeat empty_entry (Z.to_nat n)) None).
Proof. intros x Hx _. unfold cores in Hx. cbn [ht_table] in Hx. apply in_map_iff in Hx as (e & <- & He). apply repeat_spec in He. subst e. reflexivity. Qed.
Lemma grow_loop_blank es : forall nt nt', grow_loop es nt = Ok nt' -> blank nt -> blank nt'.
Proof.
  induction es as [|e es IH]; intros nt nt' E B; cbn [grow_loop] in E; [injection E as <-; exact B|]. destruct (he_status e); [eapply IH; eauto|eapply IH; eauto|].
  destruct (he_key e), (he_data e); try discriminate E. destruct (insert nt k d (he_hash e)) as [[n1 i]|] eqn:Ei; cbn [bind] in E; [|discriminate E]. eapply IH; [exact E|]. eapply insert_blank; eauto.
Qed.
Lemma create_blank ps n hf cmp t : create_hashtable (K := K) (D := D) ps n hf cmp = Ok t -> blank t.
Proof. unfold create_hashtable. destruct (_ =? 0); [discriminate|]. intros E. injection E as <-. apply fresh_blank. Qed.
Lemma addto_blank t k d t' : addto_hashtable t k d = Ok t' -> blank t -> blank t'.
Proof.
  unfold addto_hashtable. destruct (grow_size _ _ _) as [ns|]; cbn [bind]; [|discriminate]. intros E B. destruct (ns =? ht_size t).
  - cbn [bind] in E. destruct (ht_hashfunc t) as [hf|]; [|discriminate E]. destruct (insert t k d (hf k)) as [[t1 i]|] eqn:Ei; cbn [bind] in E; [|discriminate E]. injection E as <-. eapply insert_blank; eauto.
  - destruct (grow_hashtable t ns) as [t1|] eqn:G; cbn [bind] in E; [|discriminate E]. destruct (ht_hashfunc t1) as [hf|]; [|discriminate E]. destruct (insert t1 k d (hf k)) as [[t2 i]|] eqn:Ei; cbn [bind] in E; [|discriminate E]. injection E as <-.
    eapply insert_blank; eauto. eapply grow_loop_blank; [exact G|apply fresh_blank].
Qed.
(** the stores of a removal *)
Lemma remove_form (t : htable K D) k (l : list (hstore K D)) : remove_stores t k = Ok l -> l = [] /\ lookup t k = Ok None \/
  exists y (B : list (hstore K D)), lookup t k = Ok (Some y) /\ l = [SKey y None; SData y None; SHash y 0; SStatus y TOMBSTONE] ++ B /\ Forall link_store B.
Proof.
  unfold remove_stores. destruct (lookup t k) as [[y|]|]; cbn [bind]; [|intros E; injection E as <-; auto|discriminate]. destruct (nth_error (ht_table t) y) as [e|]; [|discriminate]. intros E. injection E as <-. right. exists y. eexists. split; [reflexivity|]. split; [reflexivity|].
  destruct (he_next e), (he_prev e), (ht_head t) as [h|]; try destruct (Nat.eqb h y); repeat constructor.
Qed.
Lemma remove_blank t k t' b : removefrom_hashtable t k = Ok (t', b) -> blank t -> blank t'.
Proof.
  intros E B. pose proof (remove_stores_ok t k) as S. destruct (remove_stores t k) as [l|] eqn:El; [|congruence]. destruct S as (b' & S). rewrite E in S. injection S as -> _.
  destruct (remove_form _ _ _ El) as [[-> _]|(y & L & _ & -> & F)]; [exact B|]. intros x Hx Sx. rewrite cores_happlys, cstores_app, (links_cores L F) in Hx. cbn [cstores fold_left cstore] in Hx. rewrite !upd_upd in Hx.
  apply In_upd in Hx as [Hx|(x0 & _ & ->)]; [apply (B x Hx Sx)|reflexivity].
Qed.
Lemma hstep_blank t o t' x : hstep t o = Ok (t', x) -> blank t -> blank t'.
Proof.
  destruct o as [k d|k|k]; cbn [hstep]; intros E B.
  - destruct (addto_hashtable t k d) as [t1|] eqn:A; cbn [bind] in E; [|discriminate E]. injection E as <- _. eapply addto_blank; eauto.
  - destruct (removefrom_hashtable t k) as [[t1 b]|] eqn:A; cbn [bind] in E; [|discriminate E]. injection E as <- _. eapply remove_blank; eauto.
  - destruct (lookup_hashtable t k); cbn [bind] in E; [|discriminate E]. injection E as <- _. exact B.
Qed.
Lemma hrun_blank ops : forall t t' xs, hrun t ops = Ok (t', xs) -> blank t -> blank t'.
Proof.
  induction ops as [|o ops IH]; intros t t' xs E B; cbn [hrun] in E; [injection E as <- _; exact B|]. destruct (hstep t o) as [[t1 x]|] eqn:S; cbn [bind] in E; [|discriminate E]. destruct (hrun t1 ops) as [[t2 ys]|] eqn:R; cbn [bind] in E; [|discriminate E]. injection E as <- _. eapply IH; [exact R|]. eapply hstep_blank; eauto.
Qed.

(** *** what stays, for a lookup of a key of hash value [h] *)
Section Evolve.
Context (h : Z).
Definition ev1 (x x' : ecore) : Prop := (st x = INUSE -> hs x = h \/ h = 0 -> x' = x) /\ (st x <> EMPTY -> st x' <> EMPTY) /\
  (hs x = h -> h <> 0 -> hs x' = h /\ ky x' = ky x /\ dt x' = dt x).
Definition ev (C C' : list ecore) : Prop := length C' = length C /\ forall j x x', nth_error C j = Some x -> nth_error C' j = Some x' -> ev1 x x'.
Lemma ev1_refl x : ev1 x x.
Proof. repeat split; auto. Qed.
Lemma ev_refl C : ev C C.
Proof. split; [reflexivity|]. intros j x x' H H'. rewrite H in H'. injection H' as <-. apply ev1_refl. Qed.
Lemma ev1_trans x y z : ev1 x y -> ev1 y z -> ev1 x z.
Proof.
  intros (A1 & A2 & A3) (B1 & B2 & B3). split; [|split; [auto|]].
  - intros S H. pose proof (A1 S H) as ->. apply B1; auto.
  - intros H N. destruct (A3 H N) as (C1 & C2 & C3). destruct (B3 C1 N) as (D1 & D2 & D3). repeat split; congruence.
Qed.
Lemma ev_trans A B C : ev A B -> ev B C -> ev A C.
Proof.
  intros (L1 & F1) (L2 & F2). split; [congruence|]. intros j x z Hx Hz. destruct (nth_error_lt_Some B j) as [y Hy]; [rewrite L1; eapply nth_error_Some_lt; eauto|]. eapply ev1_trans; eauto.
Qed.
Lemma ev_upd C j f : (forall x, nth_error C j = Some x -> ev1 x (f x)) -> ev C (upd C j f).
Proof.
  intros H. split; [apply upd_length|]. intros i x x' Hx Hx'. rewrite nth_error_upd in Hx'. destruct (Nat.eqb_spec j i) as [E|_]; [subst i; rewrite Hx in Hx'; injection Hx' as <-; auto|]. rewrite Hx in Hx'. injection Hx' as <-. apply ev1_refl.
Qed.
End Evolve.
End Cores.
Arguments ecore : clear implicits.
