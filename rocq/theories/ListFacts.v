(** Generic lemmas about lists used as arrays (no model content). *)
From Verif Require Import Base.
From Coq Require Import Permutation.

Lemma upd_length {A} (l : list A) i f : length (upd l i f) = length l.
Proof. revert i; induction l as [|x l IH]; intros [|i]; cbn; auto. Qed.

Lemma nth_error_upd_eq {A} (l : list A) i f :
  nth_error (upd l i f) i = option_map f (nth_error l i).
Proof. revert i; induction l as [|x l IH]; intros [|i]; cbn; auto. Qed.

Lemma nth_error_upd_neq {A} (l : list A) i j f :
  i <> j -> nth_error (upd l i f) j = nth_error l j.
Proof.
  revert i j; induction l as [|x l IH]; intros [|i] [|j] H; cbn; auto; try congruence.
Qed.

Lemma nth_error_upd {A} (l : list A) i j f :
  nth_error (upd l i f) j = if Nat.eqb i j then option_map f (nth_error l j) else nth_error l j.
Proof.
  destruct (Nat.eqb_spec i j) as [->|H]; [apply nth_error_upd_eq | apply nth_error_upd_neq; auto].
Qed.

Lemma nth_error_repeat {A} (x : A) n i : (i < n)%nat -> nth_error (repeat x n) i = Some x.
Proof. revert i; induction n as [|n IH]; intros [|i] H; cbn; auto; try lia. apply IH; lia. Qed.

Lemma nth_error_Some_lt {A} (l : list A) i x : nth_error l i = Some x -> (i < length l)%nat.
Proof. intros H; apply nth_error_Some; congruence. Qed.

Lemma nth_error_lt_Some {A} (l : list A) i : (i < length l)%nat -> exists x, nth_error l i = Some x.
Proof.
  intros H. destruct (nth_error l i) as [x|] eqn:E; [eauto|].
  apply nth_error_None in E; lia.
Qed.

Lemma Forall2_app_inv_mid {A B} (R : A -> B -> Prop) l1 x l2 c :
  Forall2 R (l1 ++ x :: l2) c ->
  exists c1 y c2, c = c1 ++ y :: c2 /\ Forall2 R l1 c1 /\ R x y /\ Forall2 R l2 c2.
Proof.
  intros H. apply Forall2_app_inv_l in H as (c1 & c2 & H1 & H2 & ->).
  inversion H2 as [|a y l' c2' Hxy Hr]; subst. eauto 7.
Qed.

Lemma Forall2_In_l {A B} (R : A -> B -> Prop) l c x :
  Forall2 R l c -> In x l -> exists y, In y c /\ R x y.
Proof.
  induction 1 as [|a b l c Hab H IH]; cbn; [tauto|].
  intros [->|Hin]; [eauto|]. destruct (IH Hin) as (y & ? & ?); eauto.
Qed.

Lemma Forall2_In_r {A B} (R : A -> B -> Prop) l c y :
  Forall2 R l c -> In y c -> exists x, In x l /\ R x y.
Proof.
  induction 1 as [|a b l c Hab H IH]; cbn; [tauto|].
  intros [->|Hin]; [eauto|]. destruct (IH Hin) as (x & ? & ?); eauto.
Qed.

Lemma Forall2_impl_In {A B} (R Q : A -> B -> Prop) l c :
  (forall a b, In a l -> R a b -> Q a b) -> Forall2 R l c -> Forall2 Q l c.
Proof.
  intros HI H. induction H as [|a b l c Hab H IH]; constructor.
  - apply HI; [left; auto|auto].
  - apply IH. intros; apply HI; [right; auto|auto].
Qed.

Lemma hd_error_app_cons {A} (l1 : list A) x l2 : hd_error (l1 ++ x :: l2) =
  match l1 with [] => Some x | y :: _ => Some y end.
Proof. destruct l1; reflexivity. Qed.

Lemma Forall2_length {A B} (R : A -> B -> Prop) l c : Forall2 R l c -> length l = length c.
Proof. induction 1; cbn; congruence. Qed.
