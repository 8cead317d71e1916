(** Properties C90, C91 and C92: the interleavings in which one call follows the other, and the exchange of the two threads. *)
From Verif Require Import Base HashModel SpecHash HashMoments DuelModel DuelProofs TugModel TugProofs ReapModel ReapProofs PropsCost.
Open Scope list_scope.
Open Scope Z_scope.

(** One call after the other, in either order, on any table whatsoever: what two calls of addto_hashtable make of it. *)
Theorem C90_serial : forall K D (t : htable K D) (a b : K * D),
  (forall u v, addto_hashtable t (fst a) (snd a) = Ok u -> addto_hashtable u (fst b) (snd b) = Ok v -> exists sched, duel a b sched t IStart IStart = Ok (v, IDone, IDone)) /\
  (forall u v, addto_hashtable t (fst b) (snd b) = Ok u -> addto_hashtable u (fst a) (snd a) = Ok v -> exists sched, duel a b sched t IStart IStart = Ok (v, IDone, IDone)).
Proof.
  intros K D t a b. split; intros u v E1 E2.
  - destruct (addto_run K D t (fst a) (snd a)) as (n & R); [congruence|]. rewrite E1 in R. destruct (addto_run K D u (fst b) (snd b)) as (m & R'); [congruence|]. rewrite E2 in R'.
    exists (repeat true n ++ repeat false m). rewrite duel_app, (duel_one a b n t u _ _ _ R). cbn [bind]. exact (duel_two a b m u v _ _ _ R').
  - destruct (addto_run K D t (fst b) (snd b)) as (n & R); [congruence|]. rewrite E1 in R. destruct (addto_run K D u (fst a) (snd a)) as (m & R'); [congruence|]. rewrite E2 in R'.
    exists (repeat false n ++ repeat true m). rewrite duel_app, (duel_two a b n t u _ _ _ R). cbn [bind]. exact (duel_one a b m u v _ _ _ R').
Qed.
Print Assumptions C90_serial.

(** The threads are treated alike. *)
Theorem C90_symmetric : forall K D (a b : K * D) sched (t : htable K D) p q,
  duel b a (map negb sched) t q p = match duel a b sched t p q with Ok (u, p', q') => Ok (u, q', p') | Fault f => Fault f end.
Proof.
  intros K D a b. induction sched as [|[] r IH]; intros t p q; cbn [map negb duel]; [reflexivity| |].
  - destruct (istep (fst a) (snd a) (t, p)) as [[u p']|]; cbn [bind]; [apply IH|reflexivity].
  - destruct (istep (fst b) (snd b) (t, q)) as [[u q']|]; cbn [bind]; [apply IH|reflexivity].
Qed.
Print Assumptions C90_symmetric.

(** An addition and a removal, in either order. *)
Theorem C91_serial : forall K D (t : htable K D) (a : K * D) k,
  (forall u v b, addto_hashtable t (fst a) (snd a) = Ok u -> removefrom_hashtable u k = Ok (v, b) -> exists sched, mix a k sched t IStart DStart = Ok (v, IDone, DDone b)) /\
  (forall u v b, removefrom_hashtable t k = Ok (u, b) -> addto_hashtable u (fst a) (snd a) = Ok v -> exists sched, mix a k sched t IStart DStart = Ok (v, IDone, DDone b)).
Proof.
  intros K D t a k. split; intros u v b E1 E2.
  - destruct (addto_run K D t (fst a) (snd a)) as (n & R); [congruence|]. rewrite E1 in R. destruct (remove_run K D u k) as (m & R'). rewrite E2 in R'.
    exists (repeat true n ++ repeat false m). rewrite mix_app, (mix_add a k n t u _ _ _ R). cbn [bind]. exact (mix_rem a k m u v _ _ _ R').
  - destruct (remove_run K D t k) as (n & R). rewrite E1 in R. destruct (addto_run K D u (fst a) (snd a)) as (m & R'); [congruence|]. rewrite E2 in R'.
    exists (repeat false n ++ repeat true m). rewrite mix_app, (mix_rem a k n t u _ _ _ R). cbn [bind]. exact (mix_add a k m u v _ _ _ R').
Qed.
Print Assumptions C91_serial.

(** Two removals, in either order. *)
Theorem C92_serial : forall K D (t : htable K D) k1 k2,
  (forall u v b1 b2, removefrom_hashtable t k1 = Ok (u, b1) -> removefrom_hashtable u k2 = Ok (v, b2) -> exists sched, reap k1 k2 sched t DStart DStart = Ok (v, DDone b1, DDone b2)) /\
  (forall u v b1 b2, removefrom_hashtable t k2 = Ok (u, b2) -> removefrom_hashtable u k1 = Ok (v, b1) -> exists sched, reap k1 k2 sched t DStart DStart = Ok (v, DDone b1, DDone b2)).
Proof.
  intros K D t k1 k2. split; intros u v b1 b2 E1 E2.
  - destruct (remove_run K D t k1) as (n & R). rewrite E1 in R. destruct (remove_run K D u k2) as (m & R'). rewrite E2 in R'.
    exists (repeat true n ++ repeat false m). rewrite reap_app, (reap_one k1 k2 n t u _ _ _ R). cbn [bind]. exact (reap_two k1 k2 m u v _ _ _ R').
  - destruct (remove_run K D t k2) as (n & R). rewrite E1 in R. destruct (remove_run K D u k1) as (m & R'). rewrite E2 in R'.
    exists (repeat false n ++ repeat true m). rewrite reap_app, (reap_two k1 k2 n t u _ _ _ R). cbn [bind]. exact (reap_one k1 k2 m u v _ _ _ R').
Qed.
Print Assumptions C92_serial.

Theorem C92_symmetric : forall K D (k1 k2 : K) sched (t : htable K D) p q,
  reap k2 k1 (map negb sched) t q p = match reap k1 k2 sched t p q with Ok (u, p', q') => Ok (u, q', p') | Fault f => Fault f end.
Proof.
  intros K D k1 k2. induction sched as [|[] r IH]; intros t p q; cbn [map negb reap]; [reflexivity| |].
  - destruct (dstep k1 (t, p)) as [[u p']|]; cbn [bind]; [apply IH|reflexivity].
  - destruct (dstep k2 (t, q)) as [[u q']|]; cbn [bind]; [apply IH|reflexivity].
Qed.
Print Assumptions C92_symmetric.

(** *** Examples *)
Definition keys_of (t : htable Z Z) := map (fun k => lookup_hashtable t k) [1; 2; 5].
Example C90_ex_serial : let t := four_t [HAdd 1 10] in
  match addto_hashtable t 2 11 with Ok u => match addto_hashtable u 5 12 with Ok v => (ht_count v, keys_of v) | Fault _ => (0, []) end | Fault _ => (0, []) end = (3, [Ok (Some 10); Ok (Some 11); Ok (Some 12)]).
Proof. vm_compute. reflexivity. Qed.
Example C91_ex_serial : let t := four_t [HAdd 1 10] in
  match addto_hashtable t 2 11 with Ok u => match removefrom_hashtable u 1 with Ok (v, b) => (b, ht_count v, keys_of v) | Fault _ => (false, 0, []) end | Fault _ => (false, 0, []) end = (true, 1, [Ok None; Ok (Some 11); Ok None]).
Proof. vm_compute. reflexivity. Qed.
Example C92_ex_serial : let t := four_t [HAdd 1 10; HAdd 2 11; HAdd 5 12] in
  match removefrom_hashtable t 1 with Ok (u, b) => match removefrom_hashtable u 1 with Ok (v, b') => (b, b', ht_count v, keys_of v) | Fault _ => (false, true, 0, []) end | Fault _ => (false, true, 0, []) end = (true, false, 2, [Ok None; Ok (Some 11); Ok (Some 12)]).
Proof. vm_compute. reflexivity. Qed.
