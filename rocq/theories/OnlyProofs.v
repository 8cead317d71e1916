(** Two histories that agree on what concerns a function agree on what becomes of it. *)
From Verif Require Import Base ListFacts HashModel HashProofs SpecHash HashTrace ElfModel SpecElf ToolModel CoreModel SpecCore SpecRun SpecSync SpecOnly
  ToolProofs CoreMaps CoreRel CoreLib CoreStep CoreWrap CoreLoop CoreMain CoreEnv CoreSpec CoreFacts CoreHist.

Section Only.
Context (e : env) (ex : lmap -> cstr -> option Z) (ins : list (cstr * Z) -> entry -> list entry -> list entry).
Notation abind := (abind ins ex).
Notation abinds := (abinds ins ex).
Notation amain := (amain ins ex e).
Notation abinds_user := (abinds_user ins ex e).
Notation ainit := (ainit ins ex e).
Notation awrap := (awrap ins ex e).
Notation astep := (astep ins ex e).
Notation arun := (arun ins ex e).
Context (n : cstr) (Hn : n <> n_libc_start_main).

Record like (a a' : astate) : Prop := {
  lk_init : a_init a = a_init a';
  lk_main : n = n_main -> a_main a = a_main a';
  lk_tools : a_tools a = a_tools a';
  lk_stack : a_stack a n = a_stack a' n;
  lk_orig : a_orig a n = a_orig a' n;
  lk_maps : a_maps a = a_maps a';
  lk_own : a_init a = true -> existsb (fun p => cstr_eqb (fst p) n_gotcha) (a_tools a) = true }.

Lemma like_sym a a' : like a a' -> like a' a.
Proof. intros [A B C D E F G]. constructor; auto; [intros H; symmetry; auto|]. rewrite <- A, <- C. auto. Qed.
Lemma like_trans a b c : like a b -> like b c -> like a c.
Proof. intros [A B C D E F G] [A' B' C' D' E' F' G']. constructor; try congruence; [|auto]. intros H. rewrite B by auto. auto. Qed.

Lemma use_own m t : existsb (fun p => cstr_eqb (fst p) n_gotcha) m = true -> existsb (fun p => cstr_eqb (fst p) n_gotcha) (use_tool m t) = true.
Proof. unfold use_tool. intros H. destruct (existsb (fun p => cstr_eqb (fst p) t) m); [auto|]. rewrite existsb_app, H. reflexivity. Qed.
Lemma like_use a a' t : like a a' -> like (ause a t) (ause a' t).
Proof. intros [A B C D E F G]. constructor; cbn [ause aresolve a_init a_main a_tools a_stack a_orig a_maps fst]; auto; [congruence|]. intros H. apply use_own. auto. Qed.

Lemma like_bind a a' t u : like a a' -> like (fst (abind a t u)) (fst (abind a' t u)).
Proof.
  intros [A B C D E F G]. destruct (frame_abind ex ins a t u) as (A1 & B1 & C1 & D1). destruct (frame_abind ex ins a' t u) as (A2 & B2 & C2 & D2).
  constructor; rewrite ?A1, ?A2, ?B1, ?B2, ?C1, ?C2, ?D1, ?D2; auto.
  - unfold SpecCore.abind. destruct (cstr_dec n (ub_name u)) as [<-|N].
    + rewrite <- D, C. destruct (a_stack a n); cbn [fst a_stack]; rewrite !cupd_eq; reflexivity.
    + destruct (a_stack a (ub_name u)), (a_stack a' (ub_name u)); cbn [fst a_stack]; rewrite !cupd_neq by auto; exact D.
  - unfold SpecCore.abind. destruct (cstr_dec n (ub_name u)) as [<-|N].
    + rewrite <- D, F. destruct (a_stack a n); cbn [fst a_orig]; [rewrite !cupd_eq; reflexivity|exact E].
    + destruct (a_stack a (ub_name u)), (a_stack a' (ub_name u)); cbn [fst a_orig]; rewrite ?cupd_neq by auto; exact E.
Qed.
Lemma like_binds t ubs : forall a a', like a a' -> like (fst (abinds a t ubs)) (fst (abinds a' t ubs)).
Proof.
  induction ubs as [|u r IH]; intros a a' H; cbn [SpecCore.abinds]; [auto|]. apply (like_bind _ _ t u) in H.
  destruct (abind a t u) as [a1 f1], (abind a' t u) as [a2 f2]. cbn [fst] in H. specialize (IH a1 a2 H). destruct (abinds a1 t r), (abinds a2 t r). exact IH.
Qed.
(** a binding of another function *)
Lemma bind_other a a' t u : ub_name u <> n -> like a a' -> like (fst (abind a t u)) a'.
Proof.
  intros N [A B C D E F G]. destruct (frame_abind ex ins a t u) as (A1 & B1 & C1 & D1).
  constructor; rewrite ?A1, ?B1, ?C1, ?D1; auto; unfold SpecCore.abind; destruct (a_stack a (ub_name u)); cbn [fst a_stack a_orig]; rewrite ?cupd_neq by auto; auto.
Qed.
Lemma binds_other t ubs : (forall u, In u ubs -> ub_name u <> n) -> forall a a', like a a' -> like (fst (abinds a t ubs)) a'.
Proof.
  induction ubs as [|u r IH]; intros N a a' H; cbn [SpecCore.abinds]; [auto|]. apply (bind_other _ _ t u) in H; [|apply N; left; reflexivity].
  destruct (abind a t u) as [a1 f1]. cbn [fst] in H. specialize (IH ltac:(intros; apply N; right; auto) a1 a' H). destruct (abinds a1 t r). exact IH.
Qed.
Lemma use_own_same a a' : a_init a = true -> like a a' -> like (ause a n_gotcha) a'.
Proof.
  intros I [A B C D E F G]. assert (U : use_tool (a_tools a) n_gotcha = a_tools a) by (unfold use_tool; rewrite (G I); reflexivity).
  constructor; cbn [ause a_init a_main a_tools a_stack a_orig a_maps]; rewrite ?U; auto.
Qed.

Lemma like_main a a' : like a a' -> like (amain a n) (amain a' n).
Proof.
  intros L. unfold SpecCore.amain. destruct (cstr_eqb n n_main) eqn:Em; cbn [andb]; [|auto]. apply cstr_eqb_ok in Em.
  rewrite <- (lk_main _ _ L Em). destruct (a_main a); cbn [negb]; [auto|]. apply like_binds, like_use, like_binds, like_use. destruct L. constructor; cbn [ause aresolve a_init a_main a_tools a_stack a_orig a_maps fst]; auto.
Qed.
Lemma main_other a a' m : m <> n -> a_init a = true -> like a a' -> like (amain a m) a'.
Proof.
  intros N I L. unfold SpecCore.amain. destruct (cstr_eqb m n_main) eqn:Em; cbn [andb]; [|auto]. apply cstr_eqb_ok in Em. subst m. destruct (a_main a); cbn [negb]; [auto|].
  apply binds_other; [intros u [<-|[]]; exact N|]. apply use_own_same.
  { match goal with |- a_init (fst (SpecCore.abinds _ _ ?x ?t ?us)) = _ => destruct (frame_abinds ex ins t us x) as (-> & _) end. exact I. }
  apply binds_other; [intros u [<-|[]]; cbn [ub_name]; congruence|]. apply use_own_same; [exact I|]. destruct L. constructor; cbn [a_init a_main a_tools a_stack a_orig a_maps]; auto. intros Q. congruence.
Qed.
Lemma main_init a m : a_init (amain a m) = a_init a.
Proof. destruct (frame_amain e ex ins a m) as (H & _). exact H. Qed.

Lemma user_like t ubs : forall a a', a_init a = true -> like a a' -> like (fst (abinds_user a t ubs)) (fst (abinds_user a' t (of_name n ubs))).
Proof.
  induction ubs as [|u r IH]; intros a a' I L; cbn [SpecCore.abinds_user of_name filter]; [auto|].
  assert (I1 : a_init (fst (abind (amain a (ub_name u)) t u)) = true).
  { destruct (frame_abind ex ins (amain a (ub_name u)) t u) as (-> & _). rewrite main_init. exact I. }
  destruct (cstr_eqb (ub_name u) n) eqn:Eu.
  - apply cstr_eqb_ok in Eu. cbn [SpecCore.abinds_user].
    assert (L1 : like (fst (abind (amain a (ub_name u)) t u)) (fst (abind (amain a' (ub_name u)) t u))) by (rewrite Eu; apply like_bind, like_main; auto).
    destruct (abind (amain a (ub_name u)) t u) as [a1 f1], (abind (amain a' (ub_name u)) t u) as [a2 f2]. cbn [fst] in *. specialize (IH a1 a2 I1 L1). fold (of_name n r).
    destruct (abinds_user a1 t r), (abinds_user a2 t (of_name n r)). exact IH.
  - assert (N : ub_name u <> n) by (intros H; apply cstr_eqb_ok in H; congruence).
    assert (L1 : like (fst (abind (amain a (ub_name u)) t u)) a') by (apply bind_other; [auto|apply main_other; auto]).
    destruct (abind (amain a (ub_name u)) t u) as [a1 f1]. cbn [fst] in *. specialize (IH a1 a' I1 L1). fold (of_name n r). destruct (abinds_user a1 t r). exact IH.
Qed.

Lemma like_init a a' : like a a' -> like (ainit a) (ainit a').
Proof.
  intros L. unfold SpecCore.ainit. rewrite <- (lk_init _ _ L). destruct (a_init a) eqn:I; [auto|]. apply like_binds.
  destruct L as [A B C D E F G]. constructor; cbn [ause aresolve a_init a_main a_tools a_stack a_orig a_maps fst]; auto; [congruence|]. intros _. unfold use_tool.
  destruct (existsb (fun p => cstr_eqb (fst p) n_gotcha) (a_tools a)) eqn:Ex; [exact Ex|]. rewrite existsb_app. cbn [existsb fst]. rewrite cstr_eqb_refl, orb_true_r. reflexivity.
Qed.
Lemma init_true a : a_init (ainit a) = true.
Proof. unfold SpecCore.ainit. destruct (a_init a) eqn:I; [auto|]. match goal with |- a_init (fst (SpecCore.abinds _ _ ?x ?t ?us)) = _ => destruct (frame_abinds ex ins t us x) as (-> & _) end. reflexivity. Qed.

Lemma set_prio_own m t v : existsb (fun p => cstr_eqb (fst p) n_gotcha) m = true -> existsb (fun p => cstr_eqb (fst p) n_gotcha) (set_prio m t v) = true.
Proof.
  intros H. apply existsb_exists in H. destruct H as (p & Hp & Ep). apply existsb_exists. unfold set_prio. eexists. split; [apply in_map; exact Hp|]. destruct (cstr_eqb (fst p) t); exact Ep.
Qed.

Lemma step_like a a' o o' : like a a' -> same_op n o o' -> like (fst (astep a o)) (fst (astep a' o')).
Proof.
  intros L H. pose proof (like_init _ _ L) as LI.
  destruct o as [ubs t|t v|t|f|libs m| |keep m], o' as [ubs' t'|t' v'|t'|f'|libs' m'| |keep' m']; try destruct H; cbn [SpecCore.astep fst].
  - subst t'. unfold SpecCore.awrap. set (tn := match t with Some t => t | None => n_unspecified end).
    assert (LU : like (ause (ainit a) tn) (ause (ainit a') tn)) by (apply like_use; auto).
    assert (I1 : a_init (ause (ainit a) tn) = true) by apply init_true. assert (I2 : a_init (ause (ainit a') tn) = true) by apply init_true.
    pose proof (user_like tn ubs _ _ I1 LU) as H1. pose proof (user_like tn ubs' _ _ I2 (like_sym _ _ LU)) as H2. rewrite <- H0 in H2.
    assert (H3 : like (fst (abinds_user (ause (ainit a') tn) tn (of_name n ubs))) (fst (abinds_user (ause (ainit a) tn) tn (of_name n ubs)))).
    { pose proof (user_like tn (of_name n ubs) _ _ I2 (like_sym _ _ LU)) as H3. unfold of_name in H3 at 2.
      replace (filter (fun u => cstr_eqb (ub_name u) n) (of_name n ubs)) with (of_name n ubs) in H3; [exact H3|].
      unfold of_name. clear. induction ubs as [|u r IH]; cbn [filter]; [reflexivity|]. destruct (cstr_eqb (ub_name u) n) eqn:E; [|exact IH]. cbn [filter]. rewrite E. f_equal. exact IH. }
    pose proof (like_trans _ _ _ (like_trans _ _ _ H1 H3) (like_sym _ _ H2)) as H4.
    destruct (abinds_user (ause (ainit a) tn) tn ubs), (abinds_user (ause (ainit a') tn) tn ubs'). exact H4.
  - subst t' v'. destruct LI as [A B C D E F G]. constructor; cbn [ause aresolve a_init a_main a_tools a_stack a_orig a_maps fst]; auto; [congruence|]. intros I. apply set_prio_own, use_own. auto.
  - exact LI.
  - exact L.
  - destruct L as [A B C D E F G]. constructor; cbn [ause aresolve a_init a_main a_tools a_stack a_orig a_maps fst]; auto. congruence.
  - rewrite (lk_init _ _ L). destruct (a_init a') eqn:I; [|exact L]. destruct L as [A B C D E F G]. constructor; cbn [ause aresolve a_init a_main a_tools a_stack a_orig a_maps fst]; auto. rewrite E, D, F. reflexivity.
  - destruct L as [A B C D E F G]. constructor; cbn [ause aresolve a_init a_main a_tools a_stack a_orig a_maps fst]; auto. congruence.
Qed.

Lemma run_like ops ops' : same_for n ops ops' -> forall a a', like a a' -> like (fst (arun a ops)) (fst (arun a' ops')).
Proof.
  induction 1 as [|o o' r r' H _ IH]; intros a a' L; cbn [SpecCore.arun]; [exact L|]. pose proof (step_like _ _ _ _ L H) as L1.
  destruct (astep a o) as [a1 x], (astep a' o') as [a2 x']. cbn [fst] in L1. specialize (IH a1 a2 L1). destruct (arun a1 r), (arun a2 r'). exact IH.
Qed.
Lemma start_like maps : like (a0 maps) (a0 maps).
Proof. constructor; cbn [ause aresolve a_init a_main a_tools a_stack a_orig a_maps fst]; auto; discriminate. Qed.
End Only.
