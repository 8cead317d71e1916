(** Facts about the abstract machine: with fresh bindings the code's insertion is [place], stacks hold exactly
    the installed wrappers, relative orders are kept, priorities order the stacks. *)
From Verif Require Import Base ListFacts SpecHash HashTrace HashModel HashProofs ElfModel ToolModel CoreModel SpecCore CoreMaps CoreRel CoreWrap CoreLoop CoreMain.
From Coq Require Import Permutation Sorted.

(** *** the two insertions agree on fresh bindings *)
Section Agree.
Context (e : env) (EO : env_ok e) (ex : lmap -> cstr -> option Z).

Lemma abind_agree a t u : (forall x, In x (a_stack a (ub_name u)) -> en_wrapper x <> ub_wrapper u) ->
  abind place ex a t u = abind ins_c ex a t u.
Proof.
  intros H. unfold abind. rewrite (ins_c_place (a_tools a) (mkE t (ub_wrapper u) (ub_handle u)) (a_stack a (ub_name u))); [reflexivity|].
  cbn. intros Hi. apply in_map_iff in Hi. destruct Hi as (x & E & Hx). exact (H x Hx E).
Qed.

(** before GOTCHA binds main, its own wrappers of main and __libc_start_main are on no stack; before the
    first API call all stacks are empty *)
Definition ainv (a : astate) : Prop :=
  (a_init a = false -> a_main a = false /\ forall n, a_stack a n = []) /\
  (a_main a = false -> forall n x, In x (a_stack a n) -> ~ In (en_wrapper x) [e_w_libc e; e_w_main e]).

Lemma wrappers_neq : ~ In (e_w_dlopen e) [e_w_libc e; e_w_main e] /\ ~ In (e_w_dlsym e) [e_w_libc e; e_w_main e] /\ e_w_libc e <> e_w_main e.
Proof.
  pose proof (eo_wrappers _ EO) as H. unfold internal_wrappers in H. inversion H as [|? ? H1 H2]; subst. inversion H2 as [|? ? H3 H4]; subst.
  inversion H4 as [|? ? H5 _]; subst. cbn in *. intuition congruence.
Qed.

Lemma abind_noint a t u : (a_main a = false -> ~ In (ub_wrapper u) [e_w_libc e; e_w_main e]) -> ainv a -> a_init a = true -> ainv (fst (abind ins_c ex a t u)).
Proof.
  intros Hu [H1 H2] Hi. split.
  - rewrite abind_init, Hi. discriminate.
  - rewrite abind_main. intros Hm n x Hx. apply abind_new in Hx. destruct Hx as [Hx|(-> & ->)]; [eauto|]. cbn. auto.
Qed.

Lemma ainit_agree a : ainv a -> ainit place ex e a = ainit ins_c ex e a /\ ainv (ainit ins_c ex e a) /\ a_init (ainit ins_c ex e a) = true.
Proof.
  intros [H1 H2]. unfold ainit. destruct (a_init a) eqn:Ei; [split; [reflexivity|]; split; [split; auto; rewrite Ei; discriminate|auto]|].
  destruct (H1 eq_refl) as [Em Es].
  set (b := ause (mkA true (a_main a) (a_tools a) (a_stack a) (a_orig a) (a_maps a)) n_gotcha). unfold dl_binds. cbn [abinds].
  assert (Eb : forall n, a_stack b n = []) by (intros n; apply Es).
  rewrite (abind_agree b n_gotcha (mkUB n_dlopen (e_w_dlopen e) (e_h_dlopen e))) by (intros x Hx; rewrite Eb in Hx; contradiction).
  destruct (abind ins_c ex b n_gotcha (mkUB n_dlopen (e_w_dlopen e) (e_h_dlopen e))) as [b1 f1] eqn:E1.
  assert (B1 : b1 = fst (abind ins_c ex b n_gotcha (mkUB n_dlopen (e_w_dlopen e) (e_h_dlopen e)))) by (rewrite E1; reflexivity).
  destruct wrappers_neq as (W1 & W2 & _).
  assert (Ib : ainv b). { split; [discriminate|]. intros _ n x Hx. rewrite Eb in Hx. contradiction. }
  assert (I1 : ainv b1) by (rewrite B1; apply abind_noint; auto).
  assert (A1 : a_init b1 = true) by (rewrite B1, abind_init; reflexivity).
  rewrite (abind_agree b1 n_gotcha (mkUB n_dlsym (e_w_dlsym e) (e_h_dlsym e))).
  2:{ cbn [ub_name ub_wrapper]. intros x Hx. rewrite B1 in Hx. apply abind_new in Hx. destruct Hx as [Hx|[E _]]; [rewrite Eb in Hx; contradiction|].
      exfalso. destruct names_neq as (_ & N & _). apply N. symmetry. exact E. }
  split; [reflexivity|]. destruct (abind ins_c ex b1 n_gotcha (mkUB n_dlsym (e_w_dlsym e) (e_h_dlsym e))) as [b2 f2] eqn:E2.
  assert (B2 : b2 = fst (abind ins_c ex b1 n_gotcha (mkUB n_dlsym (e_w_dlsym e) (e_h_dlsym e)))) by (rewrite E2; reflexivity).
  cbn [fst]. rewrite B2. split; [apply abind_noint; auto|]. rewrite abind_init. auto.
Qed.

Lemma amain_agree a n : ainv a -> a_init a = true -> amain place ex e a n = amain ins_c ex e a n /\ ainv (amain ins_c ex e a n) /\ a_init (amain ins_c ex e a n) = true.
Proof.
  intros [H1 H2] Ei. unfold amain. destruct (cstr_eqb n n_main && negb (a_main a)) eqn:Em; [|split; [reflexivity|split; [split; auto|auto]]].
  apply andb_prop in Em. destruct Em as [_ Em]. apply negb_true_iff in Em. specialize (H2 Em). destruct wrappers_neq as (_ & _ & W).
  unfold libc_binds, main_binds. cbn [abinds].
  set (b := ause (mkA (a_init a) true (a_tools a) (a_stack a) (a_orig a) (a_maps a)) n_gotcha).
  rewrite (abind_agree b n_gotcha (mkUB n_libc_start_main (e_w_libc e) (e_h_libc e))) by (cbn [ub_name ub_wrapper]; intros x Hx E; apply (H2 _ x Hx); left; auto).
  destruct (abind ins_c ex b n_gotcha (mkUB n_libc_start_main (e_w_libc e) (e_h_libc e))) as [b1 f1] eqn:E1.
  assert (B1 : b1 = fst (abind ins_c ex b n_gotcha (mkUB n_libc_start_main (e_w_libc e) (e_h_libc e)))) by (rewrite E1; reflexivity).
  cbn [fst].
  rewrite (abind_agree (ause b1 n_gotcha) n_gotcha (mkUB n_main (e_w_main e) (e_h_main e))).
  2:{ cbn [ub_name ub_wrapper ause a_stack]. intros x Hx. rewrite B1 in Hx. apply abind_new in Hx. destruct Hx as [Hx|[E _]].
      - intros E. apply (H2 _ x Hx). right. left. auto.
      - exfalso. destruct names_neq as (N & _). apply N. exact E. }
  split; [reflexivity|]. set (b1' := ause b1 n_gotcha).
  destruct (abind ins_c ex b1' n_gotcha (mkUB n_main (e_w_main e) (e_h_main e))) as [b2 f2] eqn:E2.
  assert (B2 : b2 = fst (abind ins_c ex b1' n_gotcha (mkUB n_main (e_w_main e) (e_h_main e)))) by (rewrite E2; reflexivity).
  cbn [fst].
  assert (M : a_main b2 = true). { rewrite B2, abind_main. cbn. rewrite B1, abind_main. reflexivity. }
  assert (I : a_init b2 = true). { rewrite B2, abind_init. cbn. rewrite B1, abind_init. exact Ei. }
  split; [|auto]. split; rewrite ?M, ?I; discriminate.
Qed.

Lemma abinds_user_agree t ubs : forall a, ainv a -> a_init a = true -> fresh_rest e a ubs ->
  abinds_user place ex e a t ubs = abinds_user ins_c ex e a t ubs /\ ainv (fst (abinds_user ins_c ex e a t ubs)) /\ a_init (fst (abinds_user ins_c ex e a t ubs)) = true.
Proof.
  induction ubs as [|u r IH]; intros a I Ei FR; cbn [abinds_user]; [auto|].
  destruct (amain_agree a (ub_name u) I Ei) as (EA & I1 & Ei1). rewrite EA.
  rewrite abind_agree by (intros x Hx; apply (fresh_rest_amain e ex a (ub_name u) (u :: r) FR); [left; auto|auto]).
  destruct (abind ins_c ex (amain ins_c ex e a (ub_name u)) t u) as [a1 f1] eqn:E1.
  assert (B1 : a1 = fst (abind ins_c ex (amain ins_c ex e a (ub_name u)) t u)) by (rewrite E1; reflexivity).
  assert (I2 : ainv a1).
  { rewrite B1. apply abind_noint; auto. intros Hm. destruct FR as (F1 & F2 & F3). destruct F3 as [F3|F3]; [|apply F3; left; auto].
    rewrite amain_true in Hm by auto. congruence. }
  destruct (IH a1) as (A & B & C); auto.
  - rewrite B1, abind_init. auto.
  - rewrite B1. apply fresh_rest_step. auto.
  - rewrite A. destruct (abinds_user ins_c ex e a1 t r) as [a2 f2]. auto.
Qed.

Lemma fresh_rest_of a ubs t : fresh_bindings e a ubs -> ainv a -> fresh_rest e (ause (ainit ins_c ex e a) t) ubs.
Proof.
  intros FB I. destruct FB as [B1 B2 B3 B4 B5]. unfold fresh_rest. split; [auto|]. split; [|right; intros u Hu Hi; destruct (B5 u Hu) as [_ H]; apply H; right; right; exact Hi].
  intros u x Hu Hx. cbn in Hx. apply ainit_new in Hx. destruct Hx as [Hx|[Hx _]]; [eauto|].
  intros E. rewrite E in Hx. destruct (B5 u Hu). tauto.
Qed.

Lemma astep_agree a o : ainv a -> fresh_op e a o -> astep place ex e a o = astep ins_c ex e a o /\ ainv (fst (astep ins_c ex e a o)).
Proof.
  intros I FO. destruct (ainit_agree a I) as (EA & IA & EI).
  destruct o as [ubs tool|t v|t|f|libs mem| |keep mem]; cbn [astep] in *.
  - unfold awrap. rewrite EA. set (t := match tool with Some t => t | None => n_unspecified end).
    destruct (abinds_user_agree t ubs (ause (ainit ins_c ex e a) t)) as (A & B & C).
    + destruct IA as [I1 I2]. split; auto.
    + exact EI.
    + apply fresh_rest_of; auto.
    + rewrite A. destruct (abinds_user ins_c ex e (ause (ainit ins_c ex e a) t) t ubs) as [a' f]. auto.
  - rewrite EA. split; [reflexivity|]. destruct IA as [I1 I2]. split; auto.
  - rewrite EA. auto.
  - auto.
  - split; [reflexivity|]. destruct I as [I1 I2]. split; auto.
  - split; [reflexivity|]. destruct (a_init a); [|auto]. destruct I as [I1 I2]. split; auto.
  - split; [reflexivity|]. destruct I as [I1 I2]. split; auto.
Qed.

Lemma a0_inv maps : ainv (a0 maps).
Proof. split; cbn; auto; contradiction. Qed.

Lemma arun_agree ops : forall a, ainv a -> fresh_ops place ex e a ops ->
  arun place ex e a ops = arun ins_c ex e a ops /\ fresh_ops ins_c ex e a ops /\ ainv (fst (arun place ex e a ops)).
Proof.
  induction ops as [|o r IH]; intros a I FO; cbn [arun fresh_ops] in *; [auto|]. destruct FO as [F1 F2].
  destruct (astep_agree a o I F1) as [E I']. rewrite E in *. destruct (astep ins_c ex e a o) as [a1 x]. cbn [fst] in *.
  destruct (IH a1 I' F2) as (A & B & C). rewrite A in *. destruct (arun ins_c ex e a1 r) as [a2 xs]. auto.
Qed.
End Agree.

(** *** [place] *)
Lemma place_split m x s : exists l1 l2, s = l1 ++ l2 /\ place m x s = l1 ++ x :: l2 /\
  (forall y, In y l1 -> prio_of m (en_tool x) <= prio_of m (en_tool y)) /\
  match l2 with [] => True | y :: _ => prio_of m (en_tool y) < prio_of m (en_tool x) end.
Proof.
  induction s as [|y r IH]; cbn.
  - exists [], []. cbn. repeat split; auto. contradiction.
  - destruct (Z.ltb_spec (prio_of m (en_tool y)) (prio_of m (en_tool x))) as [L|L].
    + exists [], (y :: r). cbn. repeat split; auto. contradiction.
    + destruct IH as (l1 & l2 & A & B & C & D). exists (y :: l1), l2. cbn. rewrite A at 1. rewrite B. repeat split; auto.
      intros z [->|Hz]; [lia|auto].
Qed.

Lemma subseq_refl {A} (l : list A) : subseq l l.
Proof. induction l; constructor; auto. Qed.
Lemma subseq_trans {A} (l2 l3 : list A) : subseq l2 l3 -> forall l1, subseq l1 l2 -> subseq l1 l3.
Proof.
  induction 1 as [|x a b H IH|x a b H IH]; intros l1 H1.
  - auto.
  - inversion H1; subst; [constructor|constructor 3]; auto.
  - constructor 3. auto.
Qed.
Lemma subseq_insert {A} (x : A) l1 l2 : subseq (l1 ++ l2) (l1 ++ x :: l2).
Proof. induction l1; cbn; [constructor 3; apply subseq_refl|constructor; auto]. Qed.
Lemma place_subseq m x s : subseq s (place m x s).
Proof. destruct (place_split m x s) as (l1 & l2 & -> & -> & _). apply subseq_insert. Qed.
Lemma place_perm m x s : Permutation (place m x s) (s ++ [x]).
Proof.
  destruct (place_split m x s) as (l1 & l2 & -> & -> & _). rewrite <- app_assoc. apply Permutation_app_head.
  apply Permutation_cons_append.
Qed.

(** *** history of a machine state: stacks are built from the installs, in some order *)
Section Hist.
Context (e : env) (ex : lmap -> cstr -> option Z) (ins : list (cstr * Z) -> entry -> list entry -> list entry).
Notation abind := (abind ins ex).
Notation abinds := (abinds ins ex).
Notation ainit := (ainit ins ex e).
Notation amain := (amain ins ex e).
Notation abinds_user := (abinds_user ins ex e).
Notation awrap := (awrap ins ex e).
Notation astep := (astep ins ex e).
Notation arun := (arun ins ex e).

(** a property of (state, installs so far) kept by every insertion *)
Context (P : astate -> list (cstr * entry) -> Prop).
Context (Pbind : forall a I t u, P a I -> P (fst (abind a t u)) (I ++ [bound t u])).
Context (Puse : forall a I t, P a I -> P (ause a t) I).
Context (Pflag : forall a I i m, P a I -> P (mkA i m (a_tools a) (a_stack a) (a_orig a) (a_maps a)) I).
Context (Porig : forall a I o maps, P a I -> P (mkA (a_init a) (a_main a) (a_tools a) (a_stack a) o maps) I).

Lemma hist_abinds t ubs : forall a I, P a I -> P (fst (abinds a t ubs)) (I ++ map (bound t) ubs).
Proof.
  induction ubs as [|u r IH]; intros a I H; cbn; [rewrite app_nil_r; auto|].
  specialize (Pbind a I t u H). destruct (abind a t u) as [a1 f1]. cbn [fst] in Pbind. specialize (IH _ _ Pbind).
  destruct (abinds a1 t r) as [a2 f2]. cbn [fst] in *. rewrite <- app_assoc in IH. exact IH.
Qed.

Lemma frame_abind a t u : a_init (fst (abind a t u)) = a_init a /\ a_main (fst (abind a t u)) = a_main a /\ a_tools (fst (abind a t u)) = a_tools a /\ a_maps (fst (abind a t u)) = a_maps a.
Proof. unfold SpecCore.abind. destruct (a_stack a (ub_name u)); cbn; auto. Qed.

Lemma frame_abinds t ubs : forall a, a_init (fst (abinds a t ubs)) = a_init a /\ a_main (fst (abinds a t ubs)) = a_main a /\ a_tools (fst (abinds a t ubs)) = a_tools a /\ a_maps (fst (abinds a t ubs)) = a_maps a.
Proof.
  induction ubs as [|u r IH]; intros a; cbn; [auto|]. destruct (frame_abind a t u) as (A & B & C & D).
  destruct (abind a t u) as [a1 f1]. cbn [fst] in *. destruct (IH a1) as (A' & B' & C' & D'). destruct (abinds a1 t r) as [a2 f2]. cbn [fst] in *.
  repeat split; congruence.
Qed.

Lemma hist_init a I : P a I -> P (ainit a) (I ++ (if a_init a then [] else map (bound n_gotcha) (dl_binds e))) /\ a_init (ainit a) = true /\ a_main (ainit a) = a_main a.
Proof.
  intros H. unfold SpecCore.ainit. destruct (a_init a) eqn:E; [rewrite app_nil_r; auto|].
  split; [apply hist_abinds; apply Puse; apply Pflag; auto|].
  match goal with |- context [SpecCore.abinds _ _ ?x ?t ?u] => destruct (frame_abinds t u x) as (A & B & _) end. rewrite A, B. auto.
Qed.

Lemma frame_amain a n : a_init (amain a n) = a_init a /\ a_main (amain a n) = (a_main a || cstr_eqb n n_main) /\ a_maps (amain a n) = a_maps a.
Proof.
  unfold SpecCore.amain. destruct (cstr_eqb n n_main) eqn:E1; [|cbn [andb]; rewrite orb_false_r; auto].
  destruct (a_main a) eqn:E2; [cbn; auto|]. cbn [andb negb orb].
  match goal with |- context [SpecCore.abinds _ _ ?x n_gotcha (main_binds e)] => destruct (frame_abinds n_gotcha (main_binds e) x) as (A & B & _ & D) end.
  rewrite A, B, D. cbn [ause a_init a_main a_maps].
  match goal with |- context [SpecCore.abinds _ _ ?x n_gotcha (libc_binds e)] => destruct (frame_abinds n_gotcha (libc_binds e) x) as (A' & B' & _ & D') end.
  rewrite A', B', D'. auto.
Qed.

Lemma hist_amain a I n : P a I ->
  P (amain a n) (I ++ if cstr_eqb n n_main && negb (a_main a) then map (bound n_gotcha) (libc_binds e ++ main_binds e) else []).
Proof.
  intros H. unfold SpecCore.amain. destruct (cstr_eqb n n_main && negb (a_main a)); [|rewrite app_nil_r; auto].
  rewrite map_app, app_assoc. apply hist_abinds. apply Puse. apply hist_abinds. apply Puse. apply Pflag. auto.
Qed.

Lemma hist_user t ubs : forall a I, P a I ->
  P (fst (abinds_user a t ubs)) (I ++ call_installs e (a_main a) t ubs) /\ a_init (fst (abinds_user a t ubs)) = a_init a /\
  a_main (fst (abinds_user a t ubs)) = a_main a || existsb (fun u => cstr_eqb (ub_name u) n_main) ubs.
Proof.
  induction ubs as [|u r IH]; intros a I H; cbn; [rewrite app_nil_r, orb_false_r; auto|].
  pose proof (hist_amain a I (ub_name u) H) as H1. destruct (frame_amain a (ub_name u)) as (F1 & F2 & _).
  specialize (Pbind _ _ t u H1). destruct (frame_abind (amain a (ub_name u)) t u) as (F3 & F4 & _).
  destruct (abind (amain a (ub_name u)) t u) as [a1 f1]. cbn [fst] in *. destruct (IH _ _ Pbind) as (A & B & C).
  destruct (abinds_user a1 t r) as [a2 f2]. cbn [fst] in *.
  rewrite F4, F2 in A, C. rewrite <- !app_assoc in A. split; [exact A|]. split; [congruence|]. rewrite C, orb_assoc. reflexivity.
Qed.

Definition prio_step_ok (o : op) (a : astate) : Prop := forall I, P a I ->
  match o with
  | OSetPriority t v => P (mkA (a_init a) (a_main a) (set_prio (use_tool (a_tools a) t) t v) (a_stack a) (a_orig a) (a_maps a)) I
  | _ => True end.

Lemma hist_step a I o : P a I -> prio_step_ok o (ainit a) ->
  exists J, (forall r, I ++ installs e (a_init a) (a_main a) (o :: r) = (I ++ J) ++ installs e (a_init (fst (astep a o))) (a_main (fst (astep a o))) r) /\
    P (fst (astep a o)) (I ++ J).
Proof.
  intros H Hp. destruct (hist_init a I H) as (H1 & E1 & E2).
  destruct o as [ubs tool|t v|t|f|libs mem| |keep mem]; cbn [SpecCore.astep fst installs].
  - unfold SpecCore.awrap. fold (tool_name tool). set (b := ause (ainit a) (tool_name tool)).
    destruct (hist_user (tool_name tool) ubs b _ (Puse _ _ (tool_name tool) H1)) as (A & B & C).
    destruct (abinds_user b (tool_name tool) ubs) as [a' f]. cbn [fst] in *.
    assert (Eb : a_main b = a_main a) by (exact E2). rewrite Eb in *. assert (Ei : a_init b = true) by exact E1. rewrite <- app_assoc in A.
    eexists. split; [|exact A]. intros r. rewrite B, C, Ei, !app_assoc. reflexivity.
  - exists (if a_init a then [] else map (bound n_gotcha) (dl_binds e)). split; [|apply Hp; auto]. intros r. cbn. rewrite E1, E2, app_assoc. reflexivity.
  - exists (if a_init a then [] else map (bound n_gotcha) (dl_binds e)). split; [|auto]. intros r. cbn. rewrite E1, E2, app_assoc. reflexivity.
  - exists []. rewrite app_nil_r. auto.
  - exists []. rewrite app_nil_r. split; [auto|]. apply Porig. auto.
  - exists []. rewrite app_nil_r. split; [destruct (a_init a) eqn:E; cbn; rewrite ?E; auto|]. destruct (a_init a); auto. apply Porig. auto.
  - exists []. rewrite app_nil_r. split; [auto|]. apply Porig. auto.
Qed.

Lemma hist_run ops : forall a I, P a I ->
  (forall l1 o l2, ops = l1 ++ o :: l2 -> prio_step_ok o (ainit (fst (arun a l1)))) ->
  P (fst (arun a ops)) (I ++ installs e (a_init a) (a_main a) ops).
Proof.
  induction ops as [|o r IH]; intros a I H Hp.
  - cbn. rewrite app_nil_r. auto.
  - destruct (hist_step a I o H (Hp [] o r eq_refl)) as (J & E & H1). rewrite E. cbn [SpecCore.arun].
    destruct (astep a o) as [a1 x] eqn:Ea. cbn [fst] in *.
    assert (Hp1 : forall l1 o0 l2, r = l1 ++ o0 :: l2 -> prio_step_ok o0 (ainit (fst (arun a1 l1)))).
    { intros l1 o0 l2 ->. specialize (Hp (o :: l1) o0 l2 eq_refl). cbn [SpecCore.arun] in Hp. rewrite Ea in Hp. destruct (arun a1 l1). exact Hp. }
    specialize (IH a1 (I ++ J) H1 Hp1).
    destruct (arun a1 r) as [a2 xs]. exact IH.
Qed.
End Hist.

Lemma sel_app n l1 l2 : sel n (l1 ++ l2) = sel n l1 ++ sel n l2.
Proof. unfold sel. rewrite filter_app, map_app. reflexivity. Qed.
Lemma sel_bound n t u : sel n [bound t u] = if cstr_eqb (ub_name u) n then [mkE t (ub_wrapper u) (ub_handle u)] else [].
Proof. unfold sel. cbn. destruct (cstr_eqb (ub_name u) n); reflexivity. Qed.

Lemma place_abind ex a t u : a_stack (fst (abind place ex a t u)) = cupd (a_stack a) (ub_name u) (place (a_tools a) (mkE t (ub_wrapper u) (ub_handle u)) (a_stack a (ub_name u))).
Proof. unfold abind. destruct (a_stack a (ub_name u)); reflexivity. Qed.

Lemma cstr_eqb_neq a b : a <> b -> cstr_eqb a b = false.
Proof. intros H. destruct (cstr_eqb a b) eqn:E; [|auto]. apply cstr_eqb_ok in E. contradiction. Qed.

(** the stack of a name holds exactly the wrappers installed for it *)
Lemma stacks_installed e ex maps ops n :
  Permutation (a_stack (fst (arun place ex e (a0 maps) ops)) n) (installed e ops n).
Proof.
  unfold installed.
  pose (P := fun (a : astate) (I : list (cstr * entry)) => forall n, Permutation (a_stack a n) (sel n I)).
  assert (H : P (fst (arun place ex e (a0 maps) ops)) ([] ++ installs e (a_init (a0 maps)) (a_main (a0 maps)) ops)); [|apply H].
  apply hist_run; unfold P in *; cbn; auto.
  - intros a I t u H m. rewrite place_abind, sel_app, sel_bound. unfold cupd.
    destruct (cstr_dec m (ub_name u)) as [->|Hm].
    + rewrite cstr_eqb_refl. rewrite place_perm. rewrite H. reflexivity.
    + rewrite (cstr_eqb_neq m) by auto. rewrite (cstr_eqb_neq (ub_name u)) by auto. rewrite app_nil_r. auto.
  - intros l1 o l2 _. intros I H. destruct o; auto.
Qed.

Lemma stacks_keep_order e ex a o n : subseq (a_stack a n) (a_stack (fst (astep place ex e a o)) n).
Proof.
  pose (P := fun (b : astate) (I : list (cstr * entry)) => forall n, subseq (a_stack a n) (a_stack b n)).
  destruct (hist_step e ex place P) with (a := a) (I := @nil (cstr * entry)) (o := o) as (J & _ & H); unfold P in *; cbn; auto.
  - intros b I t u H m. rewrite place_abind. unfold cupd. destruct (cstr_dec m (ub_name u)) as [->|Hm].
    + rewrite cstr_eqb_refl. eapply subseq_trans; [apply place_subseq|auto].
    + rewrite (cstr_eqb_neq m) by auto. auto.
  - intros m. apply subseq_refl.
  - intros I H. destruct o; auto.
Qed.

Lemma run_keeps_order e ex ops n : forall a, subseq (a_stack a n) (a_stack (fst (arun place ex e a ops)) n).
Proof.
  induction ops as [|o r IH]; intros a; cbn; [apply subseq_refl|]. pose proof (stacks_keep_order e ex a o n) as H.
  destruct (astep place ex e a o) as [a1 x]. cbn [fst] in H. specialize (IH a1). destruct (arun place ex e a1 r) as [a2 xs].
  eapply subseq_trans; eauto.
Qed.

(** *** sortedness *)
Lemma before_app {A} (I J : list A) x y : before I x y -> before (I ++ J) x y.
Proof. intros (l1 & l2 & l3 & ->). exists l1, l2, (l3 ++ J). rewrite <- !app_assoc. cbn. rewrite <- app_assoc. reflexivity. Qed.
Lemma before_last {A} (I : list A) x y : In x I -> before (I ++ [y]) x y.
Proof. intros H. apply in_split in H. destruct H as (l1 & l2 & ->). exists l1, l2, []. rewrite <- app_assoc. reflexivity. Qed.

Lemma SS_impl {A} (R R' : A -> A -> Prop) l : (forall x y, In x l -> In y l -> R x y -> R' x y) -> StronglySorted R l -> StronglySorted R' l.
Proof.
  induction l as [|a l IH]; intros H S; [constructor|]. inversion S; subst. constructor.
  - apply IH; auto. intros; apply H; auto; right; auto.
  - rewrite Forall_forall in *. intros x Hx. apply H; auto; [left|right]; auto.
Qed.

Lemma SS_insert {A} (R : A -> A -> Prop) l1 l2 x : StronglySorted R (l1 ++ l2) -> (forall y, In y l1 -> R y x) -> (forall y, In y l2 -> R x y) ->
  StronglySorted R (l1 ++ x :: l2).
Proof.
  induction l1 as [|a l1 IH]; cbn; intros S H1 H2.
  - constructor; [auto|]. apply Forall_forall. auto.
  - inversion S; subst. constructor; [apply IH; auto|]. rewrite Forall_forall in *. intros y Hy. apply in_app_or in Hy.
    destruct Hy as [Hy|[<-|Hy]]; [apply H4; apply in_or_app; auto|auto|apply H4; apply in_or_app; auto].
Qed.

Lemma place_sorted m I x s : (forall y, In y s -> In y I) -> StronglySorted (outside m I) s -> StronglySorted (outside m (I ++ [x])) (place m x s).
Proof.
  intros HI S. destruct (place_split m x s) as (l1 & l2 & -> & -> & H1 & H2).
  assert (S' : StronglySorted (outside m (I ++ [x])) (l1 ++ l2)).
  { eapply SS_impl; [|exact S]. intros a b _ _ [H|[H B]]; [left; auto|right; split; [auto|apply before_app; auto]]. }
  apply SS_insert; auto.
  - intros y Hy. specialize (H1 y Hy). unfold outside. destruct (Z.eq_dec (prio_of m (en_tool y)) (prio_of m (en_tool x))); [right|left; lia].
    split; [auto|]. apply before_last. apply HI. apply in_or_app; auto.
  - assert (S2 : StronglySorted (outside m I) l2). { clear - S. induction l1; cbn in *; [auto|]. inversion S; auto. }
    intros y Hy. left. destruct l2 as [|z r]; [contradiction|]. inversion S2; subst. rewrite Forall_forall in H4.
    destruct Hy as [->|Hy]; [auto|]. destruct (H4 y Hy) as [L|[L _]]; lia.
Qed.

Lemma in_sel n l x : In x (sel n l) <-> In (n, x) l.
Proof.
  unfold sel. rewrite in_map_iff. split.
  - intros ([m y] & E & H). apply filter_In in H. destruct H as [H1 H2]. cbn in *. apply cstr_eqb_ok in H2. subst. auto.
  - intros H. exists (n, x). split; [auto|]. apply filter_In. split; [auto|]. cbn. apply cstr_eqb_refl.
Qed.

Lemma call_installs_tool e t ubs n x : forall m, In (n, x) (call_installs e m t ubs) -> en_tool x = n_gotcha \/ (en_tool x = t /\ ubs <> []).
Proof.
  induction ubs as [|u r IH]; intros m H; cbn [call_installs] in H; [contradiction|]. apply in_app_or in H. destruct H as [H|[H|H]].
  - destruct (cstr_eqb (ub_name u) n_main && negb m); [|contradiction]. left. apply in_map_iff in H. destruct H as (v & E & _). unfold bound in E. injection E as <- <-. reflexivity.
  - right. unfold bound in H. injection H as <- <-. split; [reflexivity|discriminate].
  - apply IH in H. destruct H as [H|[H _]]; [auto|]. right. split; [auto|discriminate].
Qed.

Lemma installs_tool e ops n x : forall i m, In (n, x) (installs e i m ops) ->
  en_tool x = n_gotcha \/ exists ubs tl, In (OWrap ubs tl) ops /\ ubs <> [] /\ en_tool x = tool_name tl.
Proof.
  induction ops as [|o r IH]; intros i m H; [contradiction|].
  assert (Own : In (n, x) (if i then [] else map (bound n_gotcha) (dl_binds e)) -> en_tool x = n_gotcha).
  { destruct i; [contradiction|]. intros Hx. apply in_map_iff in Hx. destruct Hx as (v & E & _). unfold bound in E. injection E as <- <-. reflexivity. }
  assert (Rec : forall i m, In (n, x) (installs e i m r) -> en_tool x = n_gotcha \/ exists ubs tl, In (OWrap ubs tl) (o :: r) /\ ubs <> [] /\ en_tool x = tool_name tl).
  { intros i' m' Hx. apply IH in Hx. destruct Hx as [Hx|(ubs & tl & A & B & C)]; [auto|]. right. exists ubs, tl. split; [right; auto|auto]. }
  destruct o as [ubs tool|t v|t|f|libs mem| |keep mem]; cbn [installs] in H; repeat (apply in_app_or in H; destruct H as [H|H]); eauto.
  apply call_installs_tool in H. destruct H as [H|[H N]]; [auto|]. right. exists ubs, tool. split; [left; auto|auto].
Qed.

Lemma aget_set m t v n : aget cstr_eqb (set_prio m t v) n = if cstr_eqb t n then option_map (fun _ => v) (aget cstr_eqb m n) else aget cstr_eqb m n.
Proof.
  unfold aget, set_prio. induction m as [|[k w] r IH]; cbn; [destruct (cstr_eqb t n); reflexivity|].
  destruct (cstr_eqb k t) eqn:E; cbn.
  - apply cstr_eqb_ok in E. subst. destruct (cstr_eqb t n) eqn:E2; cbn; auto.
  - destruct (cstr_eqb k n) eqn:E2; cbn; [|auto]. apply cstr_eqb_ok in E2. subst.
    destruct (cstr_eqb t n) eqn:E3; [|auto]. apply cstr_eqb_ok in E3. subst. rewrite cstr_eqb_refl in E. discriminate.
Qed.

Lemma prio_set_other m t v n : n <> t -> prio_of (set_prio m t v) n = prio_of m n.
Proof. intros H. unfold prio_of. rewrite aget_set, (cstr_eqb_neq t n) by auto. reflexivity. Qed.

Lemma stacks_sorted e ex maps ops n : priorities_first ops ->
  StronglySorted (outside (a_tools (fst (arun place ex e (a0 maps) ops))) (installed e ops n)) (a_stack (fst (arun place ex e (a0 maps) ops)) n).
Proof.
  intros PF. unfold installed.
  pose (P := fun (a : astate) (I : list (cstr * entry)) => forall n, Permutation (a_stack a n) (sel n I) /\ StronglySorted (outside (a_tools a) (sel n I)) (a_stack a n)).
  assert (H : P (fst (arun place ex e (a0 maps) ops)) ([] ++ installs e (a_init (a0 maps)) (a_main (a0 maps)) ops)); [|apply H].
  apply hist_run; unfold P in *; cbn; auto.
  - intros a I t u H m. destruct (H m) as [H1 H2]. destruct (frame_abind ex place a t u) as (_ & _ & ET & _). rewrite ET.
    rewrite place_abind, sel_app, sel_bound. unfold cupd.
    destruct (cstr_dec m (ub_name u)) as [->|Hm].
    + rewrite cstr_eqb_refl. split; [rewrite place_perm; rewrite H1; reflexivity|]. apply place_sorted; [|auto].
      intros y Hy. eapply Permutation_in; eauto.
    + rewrite (cstr_eqb_neq m) by auto. rewrite (cstr_eqb_neq (ub_name u)) by auto. rewrite app_nil_r. auto.
  - intros a I t H m. destruct (H m) as [H1 H2]. split; [auto|]. eapply SS_impl; [|exact H2].
    intros x y _ _. unfold outside. rewrite !prio_use. auto.
  - intros m. split; [reflexivity|constructor].
  - intros l1 o l2 E. intros I H. destruct o as [| t v| | | | | ]; auto.
    destruct (PF _ _ _ _ E) as [N1 N2]. cbn. intros m. destruct (H m) as [H1 H2]. split; [auto|].
    eapply SS_impl; [|exact H2].
    assert (Ht : forall x, In x (a_stack (ainit place ex e (fst (arun place ex e (a0 maps) l1))) m) -> en_tool x <> t).
    { intros x Hx.
      pose (Q := fun (a : astate) (I : list (cstr * entry)) => forall n x, In x (a_stack a n) -> In (n, x) I).
      pose proof (stacks_installed e ex maps l1) as HP.
      destruct (hist_init e ex place Q) with (a := fst (arun place ex e (a0 maps) l1)) (I := installs e false false l1) as (HQ & _); unfold Q in *; cbn; auto.
      - intros a J t' u HJ n' y Hy. rewrite place_abind in Hy. unfold cupd in Hy. apply in_or_app. destruct (cstr_dec n' (ub_name u)) as [->|Hm].
        + rewrite cstr_eqb_refl in Hy. apply (Permutation_in _ (place_perm _ _ _)) in Hy. apply in_app_or in Hy. destruct Hy as [Hy|[<-|[]]]; [left; auto|right; left; reflexivity].
        + rewrite (cstr_eqb_neq n') in Hy by auto. auto.
      - intros n' y Hy. apply in_sel. eapply Permutation_in; [exact (HP n')|auto].
      - specialize (HQ _ _ Hx). apply in_app_or in HQ. destruct HQ as [HQ|HQ].
        + apply installs_tool in HQ. destruct HQ as [->|(ubs & tl & A & B & ->)]; [auto|eauto].
        + destruct (a_init (fst (arun place ex e (a0 maps) l1))); [contradiction|].
          apply in_map_iff in HQ. destruct HQ as (w & E' & _). unfold bound in E'. injection E' as <- <-. cbn. auto. }
    intros x y Hx Hy. unfold outside. rewrite !prio_set_other by auto. rewrite !prio_use. auto.
Qed.
