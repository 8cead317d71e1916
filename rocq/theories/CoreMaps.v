(** Hash tables as finite maps, as used by the core. *)
From Verif Require Import Base ListFacts HashModel HashProofs SpecHash HashTrace ToolModel CoreModel SpecCore.
From Coq Require Import Permutation.

Section KMap.
Context {K D : Type} (P : K -> Prop) (hf : K -> Z) (cmp : K -> K -> Z) (CO : cmp_ok P hf cmp).
Context (eqb : K -> K -> bool) (EO : eqb_ok eqb).

(** the table holds exactly the map [f] *)
Definition kmap (t : htable K D) (f : K -> option D) : Prop :=
  exists l c, ht_inv hf cmp t l c /\ keys_in P c /\ NoDup (map fst c) /\ forall k, aget eqb c k = f k.

Definition kupd (f : K -> option D) (k : K) (v : option D) : K -> option D := fun x => if eqb x k then v else f x.

Lemma kmap_ext t f g : (forall k, f k = g k) -> kmap t f -> kmap t g.
Proof. intros H (l & c & A & B & C & E). exists l, c. repeat (split; [assumption|]). intros k. rewrite E. auto. Qed.

Lemma aget_cons_k (c : list (K * D)) k v x : aget eqb ((k, v) :: c) x = if eqb x k then Some v else aget eqb c x.
Proof.
  unfold aget. cbn. destruct (eqb k x) eqn:E.
  - apply EO in E. subst. rewrite (eqb_refl eqb EO). reflexivity.
  - destruct (eqb x k) eqn:E'; [|reflexivity]. apply EO in E'. subst. rewrite (eqb_refl eqb EO) in E. discriminate.
Qed.

Lemma aget_arem (c : list (K * D)) k x : aget eqb (arem eqb c k) x = if eqb x k then None else aget eqb c x.
Proof.
  unfold arem. induction c as [|[k' v] r IH]; cbn [filter]; [cbn; destruct (eqb x k); reflexivity|].
  cbn [fst]. destruct (eqb k' k) eqn:E; cbn [negb].
  - rewrite IH. apply EO in E. subst k'. rewrite aget_cons_k. destruct (eqb x k); reflexivity.
  - rewrite !aget_cons_k, IH. destruct (eqb x k') eqn:E1; [|reflexivity]. apply EO in E1. subst. rewrite E. reflexivity.
Qed.

Lemma kmap_lookup t f k : kmap t f -> P k -> lookup_hashtable t k = Ok (f k).
Proof.
  intros (l & c & A & B & C & E) Pk.
  destruct (hstep_map P hf cmp CO eqb EO t l c c (HLookup k) A B Pk C (Permutation_refl _) I) as (t' & l' & c' & H & _).
  cbn in H. destruct (lookup_hashtable t k) as [r|]; [|discriminate]. cbn in H. rewrite <- E. congruence.
Qed.

Lemma kmap_add t f k v : kmap t f -> P k -> f k = None -> exists t', addto_hashtable t k v = Ok t' /\ kmap t' (kupd f k (Some v)).
Proof.
  intros (l & c & A & B & C & E) Pk Hk.
  destruct (hstep_map P hf cmp CO eqb EO t l c c (HAdd k v) A B Pk C (Permutation_refl _)) as (t' & l' & c' & H & A' & B' & C' & E' & _).
  { rewrite E. auto. }
  cbn in H, E'. destruct (addto_hashtable t k v) as [t1|]; [|discriminate]. cbn in H. injection H as ->.
  exists t'. split; [auto|]. exists l', c'. repeat (split; [assumption|]). intros x.
  rewrite <- (aget_perm eqb EO _ _ x E') by (eapply perm_fst; [apply Permutation_sym; exact E'|auto]).
  rewrite aget_cons_k. unfold kupd. rewrite E. reflexivity.
Qed.

Lemma kmap_remove t f k : kmap t f -> P k ->
  exists t', removefrom_hashtable t k = Ok (t', match f k with Some _ => true | None => false end) /\ kmap t' (kupd f k None).
Proof.
  intros (l & c & A & B & C & E) Pk.
  destruct (hstep_map P hf cmp CO eqb EO t l c c (HRemove k) A B Pk C (Permutation_refl _) I) as (t' & l' & c' & H & A' & B' & C' & E' & _).
  cbn in H, E'. destruct (removefrom_hashtable t k) as [[t1 b]|]; [|discriminate]. cbn in H. injection H as -> H.
  exists t'. rewrite <- E, <- H. split; [auto|]. exists l', c'. repeat (split; [assumption|]). intros x.
  rewrite <- (aget_perm eqb EO _ _ x E') by (eapply perm_fst; [apply Permutation_sym; exact E'|auto]).
  rewrite aget_arem. unfold kupd. rewrite E. reflexivity.
Qed.

Lemma kmap_create ps n : 48 <= ps -> 0 < n -> exists t, create_hashtable ps n hf cmp = Ok t /\ kmap t (fun _ => None).
Proof.
  intros Hps Hn. destruct (create_spec (D:=D) ps n hf cmp Hps Hn) as (t & H & A & _). exists t. split; [auto|].
  exists [], []. split; [auto|]. split; [constructor|]. split; [constructor|reflexivity].
Qed.
End KMap.

Definition anyk {K} (_ : K) : Prop := True.
Definition smap (t : htable cstr nat) (f : cstr -> option nat) : Prop := kmap anyk strhash libc_strcmp cstr_eqb t f.

Lemma smap_ext t f g : (forall k, f k = g k) -> smap t f -> smap t g.
Proof. apply kmap_ext. Qed.
Lemma smap_lookup t f k : smap t f -> lookup_hashtable t k = Ok (f k).
Proof. intros H. apply (kmap_lookup anyk strhash libc_strcmp (strcmp_cmp_ok _ _) cstr_eqb cstr_eqb_ok); auto. exact I. Qed.
Lemma smap_add t f k v : smap t f -> f k = None -> exists t', addto_hashtable t k v = Ok t' /\ smap t' (cupd f k (Some v)).
Proof. intros H Hk. apply (kmap_add anyk strhash libc_strcmp (strcmp_cmp_ok _ _) cstr_eqb cstr_eqb_ok); auto. exact I. Qed.
Lemma smap_remove t f k : smap t f ->
  exists t', removefrom_hashtable t k = Ok (t', match f k with Some _ => true | None => false end) /\ smap t' (cupd f k None).
Proof. intros H. apply (kmap_remove anyk strhash libc_strcmp (strcmp_cmp_ok _ _) cstr_eqb cstr_eqb_ok); auto. exact I. Qed.
Lemma smap_create ps n : 48 <= ps -> 0 < n -> exists t, create_hashtable ps n strhash libc_strcmp = Ok t /\ smap t (fun _ => None).
Proof. intros A B. apply kmap_create; auto. Qed.

Lemma cstr_eqb_refl n : cstr_eqb n n = true.
Proof. apply cstr_eqb_ok. reflexivity. Qed.
Lemma cstr_eqb_neq a b : a <> b -> cstr_eqb a b = false.
Proof. intros H. unfold cstr_eqb. destruct (cstr_eq_dec a b); congruence. Qed.
Lemma cupd_eq {A} (f : cstr -> A) n v : cupd f n v n = v.
Proof. unfold cupd. rewrite cstr_eqb_refl. reflexivity. Qed.
Lemma cupd_neq {A} (f : cstr -> A) n v m : m <> n -> cupd f n v m = f m.
Proof. intros H. unfold cupd. rewrite cstr_eqb_neq; auto. Qed.
Lemma cstr_dec (a b : cstr) : a = b \/ a <> b.
Proof. destruct (cstr_eq_dec a b); auto. Qed.
