(** C61 for arbitrary hash values: what the record of libraries holds after any sequence of operations. *)
From Verif Require Import Base ListFacts HashModel HashProofs SpecHash ElfModel ToolModel CoreModel SpecCore SpecReg LibListModel CoreMaps CoreRel CoreLib LibListProofs LibListLaw
  PropsReg PropsSyncEx.
From Coq Require Import Permutation.

(** the record of [k] is taken for one of [m]: the hash values are equal and [m] does not lie above *)
Definition taken_for (k : lkey) (m : lmap) : Prop := link_map_hash k = link_map_hash (key_of m) /\ u64 (lm_ptr m) <= u64 (fst k).
(** the records, newest first: a library is recorded unless some record is taken for its own; removing it removes one
    record taken for its own, if there is any *)
Inductive records : list libop -> list lkey -> Prop :=
| rec_none : records [] []
| rec_new ops ks m : records ops ks -> (forall k, In k ks -> ~ taken_for k m) -> records (ops ++ [LTrack m]) (key_of m :: ks)
| rec_known ops ks m k : records ops ks -> In k ks -> taken_for k m -> records (ops ++ [LTrack m]) ks
| rec_removed ops k1 k k2 m : records ops (k1 ++ k :: k2) -> taken_for k m -> records (ops ++ [LRemove m]) (k1 ++ k2)
| rec_unknown ops ks m : records ops ks -> (forall k, In k ks -> ~ taken_for k m) -> records (ops ++ [LRemove m]) ks.

Lemma answers_taken k m : match_key link_map_hash link_map_cmp k (key_of m) <-> taken_for k m.
Proof.
  unfold match_key, taken_for, link_map_cmp. cbn [key_of fst]. destruct (Z.ltb_spec (u64 (fst k)) (u64 (lm_ptr m))); split; intros [A B]; split; auto; lia.
Qed.
Lemma not_answers ks m : (forall k, In k ks -> ~ match_key link_map_hash link_map_cmp k (key_of m)) -> forall k, In k ks -> ~ taken_for k m.
Proof. intros H k I T. apply (H k I), answers_taken, T. Qed.
Lemma lib_run_snoc : forall ops l o, lib_run l (ops ++ [o]) = do l' <- lib_run l ops; lib_step l' o.
Proof. induction ops as [|a ops IH]; intros l o; cbn [app lib_run bind]; [destruct (lib_step l o); reflexivity|]. destruct (lib_step l a); cbn [bind]; [apply IH|reflexivity]. Qed.
Lemma records_run l0 : rlibs l0 [] [] -> forall ops, exists l ks idx, lib_run l0 ops = Ok l /\ rlibs l ks idx /\ records ops ks.
Proof.
  intros L0 ops. induction ops as [|o ops IH] using rev_ind; [exists l0, [], []; split; [reflexivity|split; [auto|constructor]]|].
  destruct IH as (l & ks & idx & E & L & R). rewrite lib_run_snoc, E. cbn [bind]. destruct o as [m|m].
  - destruct (rlibs_track l ks idx m L) as (l' & idx' & ks' & E' & L' & [(k & I & A & ->)|[N ->]]); eexists l', _, idx'; (split; [exact E'|]); (split; [exact L'|]).
    + eapply rec_known; eauto. apply answers_taken. auto.
    + apply rec_new; [auto|]. apply not_answers. auto.
  - destruct (rlibs_remove l ks idx m L) as (l' & idx' & ks' & E' & L' & [(k1 & k & k2 & -> & A & ->)|(N & -> & _)]); eexists l', _, idx'; (split; [exact E'|]); (split; [exact L'|]).
    + eapply rec_removed; [exact R|]. apply answers_taken. auto.
    + apply rec_unknown; [auto|]. apply not_answers. auto.
Qed.

(** The law, for all sequences of operations on all libraries: the operations do not fail, the list is well linked and
    holds the records, each once, and get_library returns a record taken for the library's own if there is one. *)
Theorem C61_records_law : forall ps ops, 48 <= ps ->
  exists l0 l ks idx, lib_setup ps = Ok l0 /\ lib_run l0 ops = Ok l /\ records ops ks /\ NoDup ks /\
    dll (l_heap l) None (l_list l) idx /\ NoDup idx /\
    map (fun i => option_map lb_map (nth_error (l_heap l) i)) idx = map (fun k => Some (fst k)) ks /\
    forall m, exists r, get_library l m = Ok r /\
      match r with Some i => exists n k, nth_error ks n = Some k /\ nth_error idx n = Some i /\ taken_for k m | None => forall k, In k ks -> ~ taken_for k m end.
Proof.
  intros ps ops Hps. unfold lib_setup. destruct (create_spec (D:=nat) ps 128 link_map_hash link_map_cmp Hps ltac:(lia)) as (t & Et & I & _). rewrite Et. cbn [bind].
  destruct (records_run (mkLS t [] None 0)) with (ops := ops) as (l & ks & idx & E & L & R).
  { constructor; cbn; try constructor. exists [], []. split; [exact I|constructor]. }
  exists (mkLS t [] None 0), l, ks, idx. split; [reflexivity|]. split; [exact E|]. split; [exact R|]. pose proof L as [D N K Rc _]. split; [exact K|]. split; [exact D|]. split; [exact N|]. split.
  - clear - Rc. induction Rc as [|i k a b (lb & H1 & H2) R IH]; cbn; [auto|]. rewrite H1. cbn. rewrite IH. congruence.
  - intros m. pose proof (rlibs_get _ _ _ m L) as G. destruct (get_library l m) as [[i|]|] eqn:Eg; [| |contradiction].
    + exists (Some i). split; [reflexivity|]. destruct G as (n & k & A & B & C). exists n, k. split; [auto|]. split; [auto|]. apply answers_taken. auto.
    + exists None. split; [reflexivity|]. apply not_answers. auto.
Qed.
Print Assumptions C61_records_law.

(** libpq.so's record is taken for one of libpa.so, which removes it *)
Example records_pq : taken_for (key_of lib_pq) lib_pa /\ key_of lib_pa <> key_of lib_pq /\ records [LTrack lib_pq; LTrack lib_pa; LRemove lib_pa] [].
Proof.
  assert (T : taken_for (key_of lib_pq) lib_pa) by (split; vm_compute; [reflexivity|discriminate]).
  split; [exact T|]. split; [vm_compute; discriminate|].
  apply (rec_removed [LTrack lib_pq; LTrack lib_pa] [] (key_of lib_pq) [] lib_pa); [|exact T].
  apply (rec_known [LTrack lib_pq] [key_of lib_pq] lib_pa (key_of lib_pq)); [|left; reflexivity|exact T].
  apply (rec_new [] [] lib_pq); [constructor|intros k []].
Qed.
