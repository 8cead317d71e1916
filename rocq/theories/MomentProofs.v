(** What lookups see between the stores to a hash table. *)
From Verif Require Import Base ListFacts HashModel HashProofs SpecHash HashTrace ToolModel CoreModel HashMoments SpecMoments.
From Coq Require Import Permutation.

(** *** what a lookup of a key with hash value [h] sees of an entry *)
Inductive seen (K D : Type) := SeeEmpty | SeeOther | SeeHit (k : option K) (d : option D).
Arguments SeeEmpty {K D}. Arguments SeeOther {K D}. Arguments SeeHit {K D}.
Definition see {K D} (h : Z) (e : hentry K D) : seen K D :=
  match he_status e with
  | EMPTY => SeeEmpty
  | TOMBSTONE => SeeOther
  | INUSE => if he_hash e =? h then SeeHit (he_key e) (he_data e) else SeeOther
  end.

Section Fix.
Context {K D : Type}.
Implicit Types (t u : htable K D) (tbl : list (hentry K D)).

Lemma map_see_nth h tbl tbl' i : map (see h) tbl = map (see h) tbl' -> option_map (see h) (nth_error tbl i) = option_map (see h) (nth_error tbl' i).
Proof. intros E. rewrite <- !nth_error_map, E. reflexivity. Qed.
Lemma lookup_loop_see cmp k h tbl tbl' n s : map (see h) tbl = map (see h) tbl' ->
  forall fuel i, lookup_loop fuel tbl n cmp k h i s = lookup_loop fuel tbl' n cmp k h i s.
Proof.
  intros E. induction fuel as [|f IH]; intros i; [reflexivity|]. cbn [lookup_loop]. pose proof (map_see_nth h tbl tbl' i E) as M.
  destruct (nth_error tbl i) as [e|], (nth_error tbl' i) as [e'|]; cbn [option_map] in M; try discriminate M; [|reflexivity].
  unfold see in M. destruct (he_status e) eqn:S1, (he_status e') eqn:S2; try discriminate M; cbn [bind]; rewrite ?IH; try reflexivity.
  all: destruct (he_hash e =? h), (he_hash e' =? h); try discriminate M; cbn [bind]; rewrite ?IH; try reflexivity.
  all: injection M as Mk _; rewrite Mk; reflexivity.
Qed.
Lemma lookup_loop_hit cmp k h tbl n s : forall fuel i j, lookup_loop fuel tbl n cmp k h i s = Ok (Some j) ->
  exists e k', nth_error tbl j = Some e /\ he_status e = INUSE /\ he_hash e = h /\ he_key e = Some k' /\ cmp k' k = 0.
Proof.
  induction fuel as [|f IH]; intros i j E; [discriminate E|]. cbn [lookup_loop] in E. destruct (nth_error tbl i) as [e|] eqn:He; [|discriminate E].
  destruct (he_status e) eqn:St; cbn [bind] in E.
  - discriminate E.
  - destruct (Nat.eqb _ s); [discriminate E|]. eapply IH. exact E.
  - destruct (Z.eqb_spec (he_hash e) h) as [Hh|Hh]; cbn [bind] in E.
    + destruct (he_key e) as [k'|] eqn:Hk; cbn [bind] in E; [|discriminate E]. destruct (Z.eqb_spec (cmp k' k) 0) as [C|C].
      * injection E as <-. exists e, k'. auto.
      * destruct (Nat.eqb _ s); [discriminate E|]. eapply IH. exact E.
    + destruct (Nat.eqb _ s); [discriminate E|]. eapply IH. exact E.
Qed.
Lemma lookup_see t u k : ht_size u = ht_size t -> ht_hashfunc u = ht_hashfunc t -> ht_keycmp u = ht_keycmp t ->
  (forall hf, ht_hashfunc t = Some hf -> map (see (hf k)) (ht_table u) = map (see (hf k)) (ht_table t)) ->
  lookup_hashtable u k = lookup_hashtable t k.
Proof.
  intros E1 E2 E3 M. unfold lookup_hashtable, lookup. rewrite E1, E2, E3. destruct (ht_hashfunc t) as [hf|]; [|reflexivity]. specialize (M hf eq_refl). destruct (ht_keycmp t) as [cmp|]; [|reflexivity].
  destruct (ht_size t =? 0); [reflexivity|]. rewrite (lookup_loop_see cmp k (hf k) (ht_table u) (ht_table t) _ _ M).
  destruct (lookup_loop _ (ht_table t) _ cmp k (hf k) _ _) as [[j|]|] eqn:L; cbn [bind]; try reflexivity.
  destruct (lookup_loop_hit _ _ _ _ _ _ _ _ _ L) as (e & k' & He & St & Hh & Hk & _). pose proof (map_see_nth _ _ _ j M) as S. rewrite He in *. destruct (nth_error (ht_table u) j) as [e'|]; cbn [option_map] in S; [|discriminate S].
  unfold see in S. rewrite St, Hh, Z.eqb_refl in S. destruct (he_status e'); try discriminate S. destruct (he_hash e' =? hf k); [|discriminate S]. injection S as _ S. rewrite S. reflexivity.
Qed.

(** *** stores that no lookup sees *)
Definition view_same t u : Prop := ht_size u = ht_size t /\ ht_hashfunc u = ht_hashfunc t /\ ht_keycmp u = ht_keycmp t /\ forall h, map (see h) (ht_table u) = map (see h) (ht_table t).
Lemma view_refl t : view_same t t.
Proof. repeat split. Qed.
Lemma view_trans t u v : view_same t u -> view_same u v -> view_same t v.
Proof. intros (A & B & C & F) (A' & B' & C' & F'). split; [congruence|]. split; [congruence|]. split; [congruence|]. intros h. rewrite F', F. reflexivity. Qed.
Lemma view_lookup t u k : view_same t u -> lookup_hashtable u k = lookup_hashtable t k.
Proof. intros (A & B & C & F). apply lookup_see; auto. Qed.
Lemma map_upd_same {A B} (g : A -> B) (l : list A) i f : (forall x, nth_error l i = Some x -> g (f x) = g x) -> map g (upd l i f) = map g l.
Proof.
  revert i. induction l as [|x l IH]; intros i H; [destruct i; reflexivity|]. destruct i as [|i]; cbn [upd map]; [rewrite (H x eq_refl); reflexivity|]. rewrite IH; [reflexivity|]. exact H.
Qed.
(** links, head and count *)
Definition link_store (s : hstore K D) : Prop := match s with SNext _ _ | SPrev _ _ | SHead _ | SCount _ => True | _ => False end.
Lemma link_view t s : link_store s -> view_same t (happly t s).
Proof.
  intros L. assert (G : forall i (f : hentry K D -> hentry K D), (forall h x, see h (f x) = see h x) -> view_same t (set_arr (upd (ht_table t) i f) t)).
  { intros i f H. repeat split. intros h. cbn [ht_table set_arr]. apply map_upd_same. intros x _. apply H. }
  destruct s; try contradiction L; cbn [happly]; try (apply G; intros h x; reflexivity); repeat split.
Qed.
Lemma links_view l : forall t, Forall link_store l -> view_same t (happlys l t).
Proof. induction l as [|s l IH]; intros t F; [apply view_refl|]. inversion F as [|? ? F1 F2]; subst. apply (view_trans t (happly t s)); [apply link_view; exact F1|]. apply (IH (happly t s)). exact F2. Qed.
(** fields of an entry that is not in use *)
Definition free_at t (i : nat) : Prop := forall e, nth_error (ht_table t) i = Some e -> he_status e <> INUSE.
Definition field_store (i : nat) (s : hstore K D) : Prop := match s with SKey j _ | SData j _ | SHash j _ => j = i | _ => False end.
Lemma field_view t i s : field_store i s -> free_at t i -> view_same t (happly t s) /\ free_at (happly t s) i.
Proof.
  intros F N. assert (G : forall f : hentry K D -> hentry K D, (forall e, he_status (f e) = he_status e) -> view_same t (set_arr (upd (ht_table t) i f) t) /\ free_at (set_arr (upd (ht_table t) i f) t) i).
  { intros f Hf. split.
    - repeat split. intros h. cbn [ht_table set_arr]. apply map_upd_same. intros x Hx. unfold see. rewrite Hf. specialize (N x Hx). destruct (he_status x); try reflexivity. destruct N; reflexivity.
    - intros e He. cbn [ht_table set_arr] in He. rewrite nth_error_upd_eq in He. destruct (nth_error (ht_table t) i) as [x|] eqn:Hx; [|discriminate He]. injection He as <-. rewrite Hf. apply N. exact Hx. }
  destruct s; try contradiction F; cbn [field_store] in F; subst; cbn [happly]; apply G; reflexivity.
Qed.
Lemma fields_view i l : forall t, Forall (field_store i) l -> free_at t i -> view_same t (happlys l t).
Proof.
  induction l as [|s l IH]; intros t F N; [apply view_refl|]. inversion F as [|? ? F1 F2]; subst. destruct (field_view t i s F1 N) as [V N']. apply (view_trans t (happly t s)); [exact V|]. apply (IH (happly t s)); assumption.
Qed.
Lemma happlys_app l1 l2 t : happlys (l1 ++ l2) t = happlys l2 (happlys l1 t).
Proof. apply fold_left_app. Qed.
(** prefixes of A ++ s :: B *)
Lemma prefix_split {A} (a : list A) s b l1 l2 : l1 ++ l2 = a ++ s :: b ->
  (exists a2, a = l1 ++ a2) \/ (exists b1 b2, b = b1 ++ b2 /\ l1 = a ++ s :: b1).
Proof.
  revert l1. induction a as [|x a IH]; intros l1 E; cbn [app] in E.
  - destruct l1 as [|y l1]; [left; exists []; reflexivity|]. cbn [app] in E. injection E as -> E. right. exists l1, l2. auto.
  - destruct l1 as [|y l1]; [left; exists (x :: a); reflexivity|]. cbn [app] in E. injection E as -> E. destruct (IH l1 E) as [(a2 & ->)|(b1 & b2 & -> & ->)]; [left; exists a2; reflexivity|]. right. exists b1, b2. auto.
Qed.
Lemma app_split {A} (a b l1 l2 : list A) : l1 ++ l2 = a ++ b -> (exists a2, a = l1 ++ a2) \/ (exists b1, l1 = a ++ b1 /\ b = b1 ++ l2).
Proof.
  revert l1. induction a as [|x a IH]; intros l1 E; cbn [app] in E; [right; exists l1; auto|]. destruct l1 as [|y l1]; [left; exists (x :: a); reflexivity|]. cbn [app] in E. injection E as -> E.
  destruct (IH l1 E) as [(a2 & ->)|(b1 & -> & ->)]; [left; exists a2; reflexivity|right; exists b1; auto].
Qed.
Lemma Forall_prefix {A} (Q : A -> Prop) a b : Forall Q (a ++ b) -> Forall Q a.
Proof. rewrite Forall_app. tauto. Qed.

(** *** insert *)
Lemma probe_free : forall fuel tbl n i s j, insert_probe fuel tbl n i s = Ok (true, j) -> exists e, nth_error tbl j = Some e /\ he_status e <> INUSE.
Proof.
  induction fuel as [|f IH]; intros tbl n i s j E; [discriminate E|]. cbn [insert_probe] in E. destruct (nth_error tbl i) as [e|] eqn:He; [|discriminate E].
  destruct (he_status e) eqn:St; [injection E as <-; exists e; rewrite St; auto; split; [exact He|discriminate]|injection E as <-; exists e; rewrite St; split; [exact He|discriminate]|].
  destruct (Nat.eqb _ s); [discriminate E|]. eapply IH. exact E.
Qed.
Lemma upd_upd {A} (l : list A) i (f g : A -> A) : upd (upd l i f) i g = upd l i (fun x => g (f x)).
Proof. revert i. induction l as [|x l IH]; intros i; destruct i; cbn [upd]; try reflexivity. rewrite IH. reflexivity. Qed.
Lemma upd_ext {A} (l : list A) i (f g : A -> A) : (forall x, f x = g x) -> upd l i f = upd l i g.
Proof. intros E. revert i. induction l as [|x l IH]; intros i; destruct i; cbn [upd]; try reflexivity; [rewrite E; reflexivity|rewrite IH; reflexivity]. Qed.
Lemma insert_stores_ok t k d v :
  match insert_stores t k d v with
  | Ok l => exists i, insert t k d v = Ok (happlys l t, i)
  | Fault f => insert t k d v = Fault f
  end.
Proof.
  unfold insert_stores, insert. destruct (ht_size t =? 0); [reflexivity|]. destruct (insert_probe _ _ _ _ _) as [[fr i]|]; cbn [bind]; [|reflexivity]. exists i. f_equal. f_equal.
  destruct t as [sz ct hf cmp tbl hd]. cbn [ht_head ht_count ht_size ht_hashfunc ht_keycmp ht_table].
  destruct fr, hd as [h|]; cbn [app happlys fold_left happly set_arr ht_head ht_count ht_size ht_hashfunc ht_keycmp ht_table]; f_equal; rewrite !upd_upd; try reflexivity.
Qed.
Lemma insert_moment t k d v l u : insert_stores t k d v = Ok l -> moment l t u ->
  view_same t u \/ view_same (happlys l t) u.
Proof.
  unfold insert_stores. destruct (ht_size t =? 0); [discriminate|]. destruct (insert_probe _ _ _ _ _) as [[fr i]|] eqn:Pr; cbn [bind]; [|discriminate]. intros E.
  set (B := @app (hstore K D) [SNext i (ht_head t); SPrev i None] ((match ht_head t with Some h => [SPrev h (Some i)] | None => [] end) ++ [SHead (Some i); SCount (ht_count t + 1)])).
  assert (LB : Forall link_store B) by (subst B; destruct (ht_head t); repeat constructor). intros (l1 & l2 & El & ->). fold (happlys l1 t). destruct fr.
  - assert (X : l = [SKey i (Some k); SData i (Some d); SHash i v] ++ SStatus i INUSE :: B) by (injection E as <-; reflexivity). rewrite X in El |- *. clear X. rename El into E1. destruct (prefix_split [SKey i (Some k); SData i (Some d); SHash i v] (SStatus i INUSE) B l1 l2 (eq_sym E1)) as [(a2 & Ea)|(b1 & b2 & Eb & ->)].
    + left. destruct (probe_free _ _ _ _ _ _ Pr) as (e & He & Ne). apply (fields_view i).
      * eapply Forall_prefix. rewrite <- Ea. repeat constructor.
      * intros e' He'. rewrite He in He'. injection He' as <-. exact Ne.
    + right. rewrite Eb. replace ([SKey i (Some k); SData i (Some d); SHash i v] ++ SStatus i INUSE :: b1 ++ b2) with (([SKey i (Some k); SData i (Some d); SHash i v] ++ SStatus i INUSE :: b1) ++ b2) by reflexivity.
      rewrite happlys_app. set (w := happlys (_ ++ SStatus i INUSE :: b1) t). rewrite Eb in LB. apply Forall_app in LB. destruct (links_view b2 w (proj2 LB)) as (A1 & A2 & A3 & A4). repeat split; auto.
  - left. apply links_view. assert (X : l = B) by (injection E as <-; reflexivity). rewrite X in El. rewrite El in LB. eapply Forall_prefix. exact LB.
Qed.

(** *** growth *)
Lemma grow_stores_ok t t' : happlys (grow_stores t') t = t'.
Proof. destruct t'. reflexivity. Qed.
Lemma grow_moment t t' u : moment (grow_stores t') t u -> view_same t u \/ unusable u \/ view_same t' u.
Proof.
  assert (Z0 : forall v k, ht_size v = 0 -> exists f, @lookup_hashtable K D v k = Fault f).
  { intros v k E. unfold lookup_hashtable, lookup. rewrite E. destruct (ht_hashfunc v), (ht_keycmp v); eexists; reflexivity. }
  assert (N0 : forall v k, ht_hashfunc v = None -> exists f, @lookup_hashtable K D v k = Fault f).
  { intros v k E. unfold lookup_hashtable, lookup. rewrite E. eexists; reflexivity. }
  assert (N1 : forall v k, ht_keycmp v = None -> exists f, @lookup_hashtable K D v k = Fault f).
  { intros v k E. unfold lookup_hashtable, lookup. rewrite E. destruct (ht_hashfunc v); eexists; reflexivity. }
  assert (N2 : forall v k, ht_table v = [] -> exists f, @lookup_hashtable K D v k = Fault f).
  { intros v k E. unfold lookup_hashtable, lookup. rewrite E. destruct (ht_hashfunc v) as [hf|], (ht_keycmp v); try (eexists; reflexivity). destruct (ht_size v =? 0); [eexists; reflexivity|].
    destruct (Z.to_nat (ht_size v)) as [|n]; [eexists; reflexivity|]. cbn [lookup_loop]. destruct (Z.to_nat (u64 (hf k) mod ht_size v)); eexists; reflexivity. }
  intros (l1 & l2 & E & ->). unfold grow_stores in E. cbn [app] in E.
  destruct l1 as [|s1 l1]; [left; apply view_refl|]. cbn [app] in E. injection E as <- E. cbn [fold_left].
  do 10 (destruct l1 as [|? l1]; [right; left; intros k; first [apply Z0; reflexivity|apply N0; reflexivity|apply N1; reflexivity|apply N2; reflexivity]|cbn [app] in E; injection E as <- E; cbn [fold_left]]).
  all: right; right; destruct l1 as [|? l1]; [repeat split; reflexivity|cbn [app] in E; injection E as <- E; cbn [fold_left]].
  all: destruct l1 as [|? l1]; [repeat split; reflexivity|discriminate E].
Qed.

(** *** addto_hashtable *)
Lemma add_stores_ok t k d :
  match add_stores t k d with
  | Ok l => addto_hashtable t k d = Ok (happlys l t)
  | Fault f => addto_hashtable t k d = Fault f
  end.
Proof.
  unfold add_stores, addto_hashtable. destruct (grow_size _ _ _) as [ns|]; cbn [bind]; [|reflexivity]. destruct (ns =? ht_size t).
  - cbn [bind]. destruct (ht_hashfunc t) as [hf|]; [|reflexivity]. pose proof (insert_stores_ok t k d (hf k)) as H. destruct (insert_stores t k d (hf k)) as [l|]; cbn [bind app]; [|rewrite H; reflexivity]. destruct H as (i & ->). reflexivity.
  - destruct (grow_hashtable t ns) as [t'|]; cbn [bind]; [|reflexivity]. destruct (ht_hashfunc t') as [hf|]; [|reflexivity]. pose proof (insert_stores_ok t' k d (hf k)) as H. destruct (insert_stores t' k d (hf k)) as [l|]; cbn [bind]; [|rewrite H; reflexivity].
    destruct H as (i & ->). cbn [bind]. rewrite happlys_app, grow_stores_ok. reflexivity.
Qed.
Lemma add_moment t k d l u : add_stores t k d = Ok l -> moment l t u ->
  view_same t u \/ view_same (happlys l t) u \/
  exists ns t', grow_size (S (S (Z.to_nat (ht_count t)))) (ht_count t) (ht_size t) = Ok ns /\ ns <> ht_size t /\ grow_hashtable t ns = Ok t' /\ (unusable u \/ view_same t' u).
Proof.
  unfold add_stores. destruct (grow_size _ _ _) as [ns|] eqn:G; cbn [bind]; [|discriminate]. destruct (Z.eqb_spec ns (ht_size t)) as [E|E].
  - cbn [bind]. destruct (ht_hashfunc t) as [hf|]; [|discriminate]. destruct (insert_stores t k d (hf k)) as [l0|] eqn:I; cbn [bind app]; [|discriminate]. intros X M. injection X as <-. destruct (insert_moment _ _ _ _ _ _ I M); auto.
  - destruct (grow_hashtable t ns) as [t'|] eqn:Gr; cbn [bind]; [|discriminate]. destruct (ht_hashfunc t') as [hf|]; [|discriminate]. destruct (insert_stores t' k d (hf k)) as [l0|] eqn:I; cbn [bind]; [|discriminate]. intros X M. assert (Y : l = grow_stores t' ++ l0) by congruence. clear X.
    destruct M as (l1 & l2 & El & ->). rewrite Y in El |- *. clear Y. destruct (app_split _ _ _ _ (eq_sym El)) as [(a2 & Ea)|(b1 & -> & Eb)].
    + destruct (grow_moment t t' (fold_left happly l1 t)) as [V|[V|V]]; [exists l1, a2; auto|auto| |]; right; right; exists ns, t'; auto.
    + fold (happlys (grow_stores t' ++ b1) t). rewrite !happlys_app, grow_stores_ok. destruct (insert_moment t' k d (hf k) l0 (happlys b1 t') I) as [V|V]; [exists b1, l2; auto| |auto]. right. right. exists ns, t'. auto.
Qed.

(** *** removefrom_hashtable *)
Lemma remove_stores_ok t k :
  match remove_stores t k with
  | Ok l => exists b, removefrom_hashtable t k = Ok (happlys l t, b)
  | Fault f => removefrom_hashtable t k = Fault f
  end.
Proof.
  unfold remove_stores, removefrom_hashtable. destruct (lookup t k) as [[i|]|]; cbn [bind]; [|exists false; reflexivity|reflexivity]. destruct (nth_error (ht_table t) i) as [e|] eqn:He; [|reflexivity]. exists true. f_equal. f_equal.
  destruct t as [sz ct hf cmp tbl hd]. cbn [ht_head ht_count ht_size ht_hashfunc ht_keycmp ht_table] in *.
  destruct (he_next e) as [nx|], (he_prev e) as [pv|], hd as [h|]; try destruct (Nat.eqb h i); cbn [app happlys fold_left happly set_arr ht_head ht_count ht_size ht_hashfunc ht_keycmp ht_table]; rewrite !upd_upd; reflexivity.
Qed.
(** moments of a removal, seen by a lookup of a key of another hash value *)
Lemma remove_moment hf t k i e l u k' : lookup t k = Ok (Some i) -> nth_error (ht_table t) i = Some e -> ht_hashfunc t = Some hf -> he_status e = INUSE ->
  he_hash e <> hf k' -> hf k' <> 0 -> remove_stores t k = Ok l -> moment l t u -> lookup_hashtable u k' = lookup_hashtable t k'.
Proof.
  intros L He Hf St Nh N0. unfold remove_stores. rewrite L. cbn [bind]. rewrite He. intros E. injection E as <-.
  set (B := @app (hstore K D) (match he_next e with Some nx => [SPrev nx (he_prev e)] | None => [] end) (match he_prev e with Some pv => [SNext pv (he_next e)] | None => [] end
     ++ match ht_head t with Some h => if Nat.eqb h i then [SHead (he_next e)] else [] | None => [] end ++ [SCount (ht_count t - 1)])).
  assert (LB : Forall (@link_store) B) by (subst B; destruct (he_next e), (he_prev e), (ht_head t) as [h|]; try destruct (Nat.eqb h i); repeat constructor).
  intros (l1 & l2 & E & ->).
  assert (S : forall f : hentry K D -> hentry K D, see (hf k') (f e) = SeeOther -> lookup_hashtable (set_arr (upd (ht_table t) i f) t) k' = lookup_hashtable t k').
  { intros f Hs. apply lookup_see; try reflexivity. intros hf0 Hf0. rewrite Hf in Hf0. injection Hf0 as <-. cbn [ht_table set_arr]. apply map_upd_same. intros x Hx. rewrite He in Hx. injection Hx as <-. rewrite Hs. unfold see. rewrite St. destruct (Z.eqb_spec (he_hash e) (hf k')); [contradiction|reflexivity]. }
  assert (B0 : (0 =? hf k') = false) by (apply Z.eqb_neq; auto). assert (B1 : (he_hash e =? hf k') = false) by (apply Z.eqb_neq; auto).
  destruct l1 as [|? l1]; [reflexivity|]. cbn [app] in E. injection E as <- E.
  destruct l1 as [|? l1]; [cbn [fold_left happly]; apply S; unfold see, set_key; cbn [he_status he_hash]; rewrite St, B1; reflexivity|]. injection E as <- E.
  destruct l1 as [|? l1]; [cbn [fold_left happly ht_table set_arr]; rewrite upd_upd; apply (S (fun x => set_data None (set_key None x))); unfold see, set_key, set_data; cbn [he_status he_hash]; rewrite St, B1; reflexivity|]. injection E as <- E.
  destruct l1 as [|? l1]; [cbn [fold_left happly ht_table set_arr]; rewrite !upd_upd; apply (S (fun x => set_hash 0 (set_data None (set_key None x)))); unfold see, set_key, set_data, set_hash; cbn [he_status he_hash]; rewrite St, B0; reflexivity|]. injection E as <- E.
  cbn [fold_left]. fold (happlys l1 (happly (happly (happly (happly t (SKey i None)) (SData i None)) (SHash i 0)) (SStatus i TOMBSTONE))).
  assert (LB1 : Forall link_store l1) by (change (B = l1 ++ l2) in E; rewrite E in LB; eapply Forall_prefix; exact LB).
  rewrite (view_lookup _ _ k' (links_view l1 _ LB1)). cbn [happly ht_table set_arr]. rewrite !upd_upd. apply (S (fun x => set_status TOMBSTONE (set_hash 0 (set_data None (set_key None x))))). reflexivity.
Qed.
(** after the first store of a removal the key itself cannot be looked up *)
Lemma lookup_loop_gone cmp k h tbl n s j f : (forall e, nth_error tbl j = Some e -> f e = set_key None e) ->
  forall fuel i, lookup_loop fuel tbl n cmp k h i s = Ok (Some j) -> lookup_loop fuel (upd tbl j f) n cmp k h i s = Fault NullDeref.
Proof.
  intros F. induction fuel as [|fu IH]; intros i E; [discriminate E|]. cbn [lookup_loop] in *. rewrite nth_error_upd. destruct (Nat.eqb_spec j i) as [<-|N].
  - destruct (lookup_loop_hit cmp k h tbl n s (S fu) j j E) as (e & k' & He & St & Hh & Hk & C). rewrite He. cbn [option_map]. rewrite (F e He). cbn [set_key he_status he_hash he_key]. rewrite St, Hh, Z.eqb_refl. reflexivity.
  - destruct (nth_error tbl i) as [e|] eqn:He; [|discriminate E]. destruct (he_status e) eqn:St; cbn [bind] in *; [discriminate E| |].
    + destruct (Nat.eqb _ s); [discriminate E|]. apply IH. exact E.
    + destruct (he_hash e =? h); cbn [bind] in *; [|destruct (Nat.eqb _ s); [discriminate E|apply IH; exact E]]. destruct (he_key e) as [k'|]; cbn [bind] in *; [|discriminate E]. destruct (cmp k' k =? 0); [congruence|].
      destruct (Nat.eqb _ s); [discriminate E|apply IH; exact E].
Qed.
Lemma remove_gone t k i : lookup t k = Ok (Some i) -> lookup_hashtable (happly t (SKey i None)) k = Fault NullDeref.
Proof.
  unfold lookup_hashtable, lookup. cbn [happly set_arr ht_hashfunc ht_keycmp ht_size ht_table]. destruct (ht_hashfunc t) as [hf|]; [|discriminate]. destruct (ht_keycmp t) as [cmp|]; [|discriminate]. destruct (ht_size t =? 0); [discriminate|]. intros E.
  rewrite (lookup_loop_gone cmp k (hf k) (ht_table t) _ _ i (set_key None)); [reflexivity|reflexivity|exact E].
Qed.
End Fix.
