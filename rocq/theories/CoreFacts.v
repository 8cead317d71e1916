(** Further facts about the abstract machine: tools and priorities, return codes, original functions. *)
From Verif Require Import Base ListFacts SpecHash HashTrace HashModel HashProofs ElfModel ToolModel CoreModel SpecCore CoreMaps CoreRel CoreWrap CoreLoop CoreMain CoreSpec.
From Coq Require Import Permutation Sorted.

Lemma aget_use m t n : aget cstr_eqb (use_tool m t) n =
  match aget cstr_eqb m n with Some v => Some v | None => if cstr_eqb t n then Some (-1) else None end.
Proof.
  unfold use_tool, aget. destruct (existsb (fun p => cstr_eqb (fst p) t) m) eqn:E.
  - destruct (find (fun e => cstr_eqb (fst e) n) m) as [[k w]|] eqn:F; [reflexivity|].
    destruct (cstr_eqb t n) eqn:E2; [|reflexivity]. apply cstr_eqb_ok in E2. subst.
    apply existsb_exists in E. destruct E as (x & H1 & H2). apply (find_none _ _ F) in H1. cbn in H1. congruence.
  - clear E. induction m as [|[k w] r IH]; cbn; [destruct (cstr_eqb t n); reflexivity|]. destruct (cstr_eqb k n); [reflexivity|auto].
Qed.

Section Facts.
Context (e : env) (ex : lmap -> cstr -> option Z) (ins : list (cstr * Z) -> entry -> list entry -> list entry).
Notation abind := (abind ins ex).
Notation abinds := (abinds ins ex).
Notation ainit := (ainit ins ex e).
Notation amain := (amain ins ex e).
Notation abinds_user := (abinds_user ins ex e).
Notation awrap := (awrap ins ex e).
Notation astep := (astep ins ex e).
Notation arun := (arun ins ex e).

(** *** link maps *)
Lemma init_maps a : a_maps (ainit a) = a_maps a.
Proof. unfold SpecCore.ainit. destruct (a_init a); [auto|]. match goal with |- context [SpecCore.abinds _ _ ?x ?t ?u] => destruct (frame_abinds ex ins t u x) as (_ & _ & _ & D) end. rewrite D. auto. Qed.
Lemma user_maps t ubs : forall a, a_maps (fst (abinds_user a t ubs)) = a_maps a.
Proof.
  induction ubs as [|u r IH]; intros a; cbn; [auto|]. destruct (frame_amain e ex ins a (ub_name u)) as (_ & _ & E1).
  destruct (frame_abind ex ins (amain a (ub_name u)) t u) as (_ & _ & _ & E2). destruct (abind (amain a (ub_name u)) t u) as [a1 f]. cbn in E2.
  specialize (IH a1). destruct (abinds_user a1 t r). cbn in *. congruence.
Qed.
Lemma step_maps a o : a_maps (fst (astep a o)) = maps_after (a_maps a) [o].
Proof.
  destruct o as [ubs tool|t v|t|f|libs mem| |keep mem]; cbn; try apply init_maps; auto; [|destruct (a_init a); auto].
  unfold SpecCore.awrap. fold (tool_name tool). pose proof (user_maps (tool_name tool) ubs (ause (ainit a) (tool_name tool))) as H.
  destruct (abinds_user _ _ ubs). cbn in *. rewrite H, init_maps. auto.
Qed.
Lemma maps_after_cons maps o r : maps_after maps (o :: r) = maps_after (maps_after maps [o]) r.
Proof. destruct o; reflexivity. Qed.
Lemma maps_after_app r : forall maps ops, maps_after maps (ops ++ r) = maps_after (maps_after maps ops) r.
Proof. intros maps ops. revert maps. induction ops as [|o l IH]; intros maps; [reflexivity|]. cbn [app]. rewrite maps_after_cons, IH, (maps_after_cons maps o l). reflexivity. Qed.
Lemma run_maps ops : forall a, a_maps (fst (arun a ops)) = maps_after (a_maps a) ops.
Proof.
  induction ops as [|o r IH]; intros a; [reflexivity|]. cbn [SpecCore.arun]. pose proof (step_maps a o) as H. destruct (astep a o) as [a1 x]. cbn in H.
  specialize (IH a1). destruct (arun a1 r). cbn [fst] in *. rewrite IH, H, (maps_after_cons (a_maps a) o r). reflexivity.
Qed.

(** *** tools *)
Definition gused (a : astate) : Prop := a_init a = true -> aget cstr_eqb (a_tools a) n_gotcha <> None.

Lemma aget_use_idem m t n : aget cstr_eqb m t <> None -> aget cstr_eqb (use_tool m t) n = aget cstr_eqb m n.
Proof.
  intros H. rewrite aget_use. destruct (aget cstr_eqb m n) eqn:E; [auto|]. destruct (cstr_eqb t n) eqn:E2; [|auto].
  apply cstr_eqb_ok in E2. subst. contradiction.
Qed.
Lemma init_tools a t : gused a -> aget cstr_eqb (a_tools (ainit a)) t = if a_init a then aget cstr_eqb (a_tools a) t else aget cstr_eqb (use_tool (a_tools a) n_gotcha) t.
Proof.
  intros G. unfold SpecCore.ainit. destruct (a_init a); [auto|].
  match goal with |- context [SpecCore.abinds _ _ ?x ?t ?u] => destruct (frame_abinds ex ins t u x) as (_ & _ & C & _) end. rewrite C. reflexivity.
Qed.
Lemma init_gused a : gused a -> aget cstr_eqb (a_tools (ainit a)) n_gotcha <> None.
Proof.
  intros G. rewrite init_tools by auto. destruct (a_init a) eqn:E; [apply G; auto|]. rewrite aget_use, cstr_eqb_refl.
  destruct (aget cstr_eqb (a_tools a) n_gotcha); discriminate.
Qed.
Lemma amain_tools a n t : aget cstr_eqb (a_tools a) n_gotcha <> None -> aget cstr_eqb (a_tools (amain a n)) t = aget cstr_eqb (a_tools a) t.
Proof.
  intros G. unfold SpecCore.amain. destruct (cstr_eqb n n_main && negb (a_main a)); [|auto].
  match goal with |- context [SpecCore.abinds _ _ ?x n_gotcha (main_binds e)] => destruct (frame_abinds ex ins n_gotcha (main_binds e) x) as (_ & _ & C & _) end.
  rewrite C. cbn [ause a_tools].
  match goal with |- context [SpecCore.abinds _ _ ?x n_gotcha (libc_binds e)] => destruct (frame_abinds ex ins n_gotcha (libc_binds e) x) as (_ & _ & C' & _) end.
  rewrite C'. cbn [ause a_tools]. rewrite !aget_use_idem; auto. rewrite aget_use_idem; auto.
Qed.
Lemma user_tools tl t ubs : forall a, aget cstr_eqb (a_tools a) n_gotcha <> None -> aget cstr_eqb (a_tools (fst (abinds_user a tl ubs))) t = aget cstr_eqb (a_tools a) t.
Proof.
  induction ubs as [|u r IH]; intros a G; cbn; [auto|].
  pose proof (fun t => amain_tools a (ub_name u) t G) as E1. destruct (frame_abind ex ins (amain a (ub_name u)) tl u) as (_ & _ & E2 & _).
  destruct (abind (amain a (ub_name u)) tl u) as [a1 f]. cbn in E2. specialize (IH a1). rewrite E2 in IH. rewrite !E1 in IH. specialize (IH G).
  destruct (abinds_user a1 tl r). exact IH.
Qed.

Lemma step_tools a o t : gused a ->
  gused (fst (astep a o)) /\ aget cstr_eqb (a_tools (fst (astep a o))) t =
    match aget cstr_eqb (a_tools a) t with
    | Some v => Some (set_last t v o)
    | None => if uses t o then Some (set_last t (-1) o) else None end.
Proof.
  intros G. pose proof (init_gused a G) as GI. pose proof (fun t => init_tools a t G) as TI.
  assert (Hi : forall t, aget cstr_eqb (a_tools (ainit a)) t = match aget cstr_eqb (a_tools a) t with Some v => Some v | None => if cstr_eqb n_gotcha t then Some (-1) else None end).
  { intros t'. rewrite TI. destruct (a_init a) eqn:E; [|apply aget_use]. destruct (aget cstr_eqb (a_tools a) t') eqn:E1; [auto|].
    destruct (cstr_eqb n_gotcha t') eqn:E2; [|auto]. apply cstr_eqb_ok in E2. subst. destruct (G E E1). }
  destruct o as [ubs tool|t' v|t'|f|libs mem| |keep mem]; cbn [SpecCore.astep fst a_tools uses set_last].
  - unfold SpecCore.awrap. fold (tool_name tool).
    assert (GU : aget cstr_eqb (a_tools (ause (ainit a) (tool_name tool))) n_gotcha <> None).
    { cbn [ause a_tools]. rewrite aget_use. destruct (aget cstr_eqb (a_tools (ainit a)) n_gotcha) as [w|]; [discriminate|congruence]. }
    pose proof (fun t => user_tools (tool_name tool) t ubs _ GU) as H. destruct (abinds_user _ _ ubs) as [a' f]. cbn [fst] in *. split.
    + intros _. rewrite H. auto.
    + rewrite H. cbn [ause a_tools]. rewrite aget_use, Hi. destruct (aget cstr_eqb (a_tools a) t); [auto|]. destruct (cstr_eqb n_gotcha t); [rewrite orb_true_r; auto|].
      rewrite orb_false_r. reflexivity.
  - split.
    + intros _. cbn [a_tools]. rewrite aget_set, aget_use. destruct (aget cstr_eqb (a_tools (ainit a)) n_gotcha) as [w|]; [|congruence].
      destruct (cstr_eqb t' n_gotcha); cbn [option_map]; discriminate.
    + rewrite aget_set, aget_use, Hi. destruct (aget cstr_eqb (a_tools a) t); destruct (cstr_eqb t' t) eqn:E1; cbn [option_map orb]; auto; destruct (cstr_eqb n_gotcha t); cbn [option_map orb]; auto.
  - split; [intros _; auto|]. rewrite Hi. destruct (aget cstr_eqb (a_tools a) t); auto.
  - split; [auto|]. destruct (aget cstr_eqb (a_tools a) t); auto.
  - split; [auto|]. destruct (aget cstr_eqb (a_tools a) t); auto.
  - split; [destruct (a_init a); auto|]. destruct (a_init a); cbn; destruct (aget cstr_eqb (a_tools a) t); auto.
  - split; [auto|]. destruct (aget cstr_eqb (a_tools a) t); auto.
Qed.

Lemma run_tools ops t : forall a, gused a ->
  aget cstr_eqb (a_tools (fst (arun a ops))) t =
    match aget cstr_eqb (a_tools a) t with
    | Some v => Some (fold_left (set_last t) ops v)
    | None => if used ops t then Some (fold_left (set_last t) ops (-1)) else None end.
Proof.
  induction ops as [|o r IH]; intros a G; [cbn; destruct (aget cstr_eqb (a_tools a) t); auto|].
  cbn [SpecCore.arun]. destruct (step_tools a o t G) as [G1 H1]. destruct (astep a o) as [a1 x]. cbn [fst] in *. specialize (IH a1 G1).
  destruct (arun a1 r). cbn [fst] in *. rewrite IH, H1. unfold used. cbn [existsb fold_left].
  destruct (aget cstr_eqb (a_tools a) t); [auto|]. destruct (uses t o) eqn:E; [auto|]. cbn [orb].
  assert (E2 : set_last t (-1) o = -1); [|rewrite E2; auto]. destruct o; cbn in *; auto. apply orb_false_iff in E. destruct E as [-> _]. auto.
Qed.

Lemma arun_app r : forall ops a, arun a (ops ++ r) = (fst (arun (fst (arun a ops)) r), snd (arun a ops) ++ snd (arun (fst (arun a ops)) r)).
Proof.
  induction ops as [|o l IH]; intros a; cbn; [destruct (arun a r); reflexivity|]. destruct (astep a o) as [a1 x]. rewrite IH.
  destruct (arun a1 l) as [a2 xs]. reflexivity.
Qed.

Lemma get_result maps ops t : snd (arun (a0 maps) (ops ++ [OGetPriority t])) =
  snd (arun (a0 maps) ops) ++ [if used (ops ++ [OGetPriority t]) t then RPrio GOTCHA_SUCCESS (Some (last_set ops t)) else RPrio GOTCHA_INVALID_TOOL None].
Proof.
  rewrite arun_app. cbn [snd]. f_equal. cbn [SpecCore.arun snd]. f_equal.
  assert (G : gused (fst (arun (a0 maps) (ops ++ [OGetPriority t])))). 
  { assert (HG : forall ops a, gused a -> gused (fst (arun a ops))).
    { clear. induction ops as [|o r IH]; intros a G; [auto|]. cbn [SpecCore.arun]. destruct (step_tools a o n_gotcha G) as [G1 _].
      destruct (astep a o) as [a1 x]. specialize (IH a1 G1). destruct (arun a1 r). auto. }
    apply HG. intros H. discriminate. }
  assert (E : aget cstr_eqb (a_tools (fst (arun (a0 maps) (ops ++ [OGetPriority t])))) t = if used (ops ++ [OGetPriority t]) t then Some (fold_left (set_last t) (ops ++ [OGetPriority t]) (-1)) else None).
  { rewrite run_tools by (intros H; discriminate). reflexivity. }
  rewrite arun_app in E. cbn [fst SpecCore.arun SpecCore.astep] in E. cbn [SpecCore.astep]. rewrite E, fold_left_app. cbn. fold (last_set ops t).
  destruct (used (ops ++ [OGetPriority t]) t); reflexivity.
Qed.

(** *** emptiness of stacks *)
Context (Hins : forall m x s, ins m x s <> []).

Lemma abind_stack_gen a t u : a_stack (fst (abind a t u)) = cupd (a_stack a) (ub_name u) (ins (a_tools a) (mkE t (ub_wrapper u) (ub_handle u)) (a_stack a (ub_name u))).
Proof. unfold SpecCore.abind. destruct (a_stack a (ub_name u)); reflexivity. Qed.

Lemma stack_empty maps ops n : a_stack (fst (arun (a0 maps) ops)) n = [] <-> ~ wrapped e ops n.
Proof.
  unfold wrapped, installed.
  pose (P := fun (a : astate) (I : list (cstr * entry)) => forall n, a_stack a n = [] <-> sel n I = []).
  assert (H : P (fst (arun (a0 maps) ops)) ([] ++ installs e (a_init (a0 maps)) (a_main (a0 maps)) ops)).
  { apply hist_run; unfold P in *; cbn; auto.
    - intros a I t u H m. rewrite abind_stack_gen, sel_app, sel_bound. unfold cupd. destruct (cstr_dec m (ub_name u)) as [->|Hm].
      + rewrite cstr_eqb_refl. split; intros X; [destruct (Hins _ _ _ X)|destruct (app_eq_nil _ _ X); discriminate].
      + rewrite (cstr_eqb_neq m) by auto. rewrite (cstr_eqb_neq (ub_name u)) by auto. rewrite app_nil_r. auto.
    - intros m. unfold sel. cbn. tauto.
    - intros l1 o l2 _ I H. destruct o; auto. }
  specialize (H n). cbn [a0 a_init a_main app] in H. rewrite H. destruct (sel n (installs e false false ops)); split; intros X.
  - intros Y. congruence.
  - reflexivity.
  - discriminate.
  - exfalso. apply X. discriminate.
Qed.

(** *** what one call does to the original functions *)
Definition looked (a a' : astate) : Prop := a_maps a' = a_maps a /\
  (forall n, a_stack a n <> [] -> a_stack a' n <> []) /\
  forall n, a_orig a' n = match a_stack a n with [] => match a_stack a' n with [] => a_orig a n | _ => first_export ex (a_maps a) n end | _ => a_orig a n end.

Lemma looked_refl a : looked a a.
Proof. repeat split; auto. intros n. destruct (a_stack a n); auto. Qed.
Lemma looked_same a b c : looked a b -> a_maps c = a_maps b -> a_stack c = a_stack b -> a_orig c = a_orig b -> looked a c.
Proof. intros (A & B & C) E1 E2 E3. unfold looked. rewrite E1, E2, E3. auto. Qed.
Lemma looked_bind a b t u : looked a b -> looked a (fst (abind b t u)).
Proof.
  intros (A & C & D). destruct (frame_abind ex ins b t u) as (F1 & F2 & F3 & F4). unfold looked. rewrite F4.
  split; [auto|]. split.
  - intros n Hn. rewrite abind_stack_gen. unfold cupd. destruct (cstr_eqb n (ub_name u)); auto.
  - intros n. rewrite abind_stack_gen. unfold cupd. destruct (cstr_dec n (ub_name u)) as [->|Hn].
    + rewrite cstr_eqb_refl. specialize (C (ub_name u)). specialize (D (ub_name u)). unfold SpecCore.abind.
      pose proof (Hins (a_tools b) (mkE t (ub_wrapper u) (ub_handle u)) (a_stack b (ub_name u))) as Hi.
      destruct (ins (a_tools b) (mkE t (ub_wrapper u) (ub_handle u)) (a_stack b (ub_name u))) as [|z l]; [congruence|].
      destruct (a_stack b (ub_name u)) eqn:Eb; cbn [fst a_orig].
      * unfold cupd. rewrite cstr_eqb_refl, A. destruct (a_stack a (ub_name u)) eqn:Ea; [auto|]. exfalso. apply C; auto. discriminate.
      * rewrite D. destruct (a_stack a (ub_name u)); auto.
    + rewrite (cstr_eqb_neq n) by auto. rewrite <- D. unfold SpecCore.abind. destruct (a_stack b (ub_name u)); cbn [fst a_orig]; [|auto].
      unfold cupd. rewrite (cstr_eqb_neq n) by auto. auto.
Qed.

Lemma looked_init a : looked a (ainit a).
Proof.
  destruct (hist_init e ex ins (fun b (_ : list (cstr * entry)) => looked a b)) with (a := a) (I := @nil (cstr * entry)) as (H & _); auto.
  - intros; apply looked_bind; auto.
  - apply looked_refl.
Qed.
Lemma looked_user t ubs a b : looked a b -> looked a (fst (abinds_user b t ubs)).
Proof.
  intros H. destruct (hist_user e ex ins (fun b (_ : list (cstr * entry)) => looked a b)) with (t := t) (ubs := ubs) (a := b) (I := @nil (cstr * entry)) as (H' & _); auto.
  intros; apply looked_bind; auto.
Qed.

(** *** original functions along a history *)
Definition oinv (a : astate) : Prop := (forall n, a_stack a n = [] -> a_orig a n = None) /\ (a_init a = false -> forall n, a_stack a n = []).

Lemma looked_oinv a b : oinv a -> looked a b -> a_init b = true -> oinv b.
Proof.
  intros [H1 H2] (A & B & C) E. split; [|congruence]. intros n Hn. rewrite C, Hn. specialize (B n). destruct (a_stack a n) eqn:Ea; [auto|].
  exfalso. apply B; auto. discriminate.
Qed.

Lemma step_orig a o : oinv a -> oinv (fst (astep a o)) /\
  forall n, a_orig (fst (astep a o)) n =
    match a_stack a n with
    | [] => match a_stack (fst (astep a o)) n with [] => None | _ => first_export ex (maps_after (a_maps a) [o]) n end
    | _ => match a_orig a n with
           | Some x => Some x
           | None => match o with OFinish => first_export ex (maps_after (a_maps a) [o]) n | _ => None end end end.
Proof.
  intros I. pose proof (looked_init a) as LI.
  destruct (hist_init e ex ins (fun _ (_ : list (cstr * entry)) => True)) with (a := a) (I := @nil (cstr * entry)) as (_ & EI & _); auto.
  assert (Call : forall b, looked a b -> a_init b = true -> oinv b /\ forall n, a_orig b n = match a_stack a n with [] => match a_stack b n with [] => None | _ => first_export ex (a_maps a) n end
      | _ => match a_orig a n with Some x => Some x | None => None end end).
  { intros b L E. split; [eapply looked_oinv; eauto|]. destruct L as (A & B & C). intros n. rewrite C. destruct I as [I1 I2]. specialize (I1 n). destruct (a_stack a n); [|destruct (a_orig a n); auto].
    destruct (a_stack b n); auto. }
  assert (Same : forall b, a_stack b = a_stack a -> a_orig b = a_orig a -> a_init b = a_init a -> oinv b /\ forall X Y n, a_orig b n = match a_stack a n with [] => match a_stack b n with [] => None | _ => X n end
      | _ => match a_orig a n with Some x => Some x | None => Y end end \/ (a_orig a n = None /\ a_stack a n <> [])).
  { intros b E1 E2 E3. destruct I as [I1 I2]. unfold oinv. rewrite E1, E2, E3. split; [auto|]. intros X Y n. destruct (a_stack a n) eqn:Es; [left; auto|]. destruct (a_orig a n); [left; auto|right; split; [auto|discriminate]]. }
  destruct o as [ubs tool|t v|t|f|libs mem| |keep mem]; cbn [SpecCore.astep fst].
  - unfold SpecCore.awrap. fold (tool_name tool). cbn [maps_after].
    destruct (hist_user e ex ins (fun _ (_ : list (cstr * entry)) => True)) with (t := tool_name tool) (ubs := ubs) (a := ause (ainit a) (tool_name tool)) (I := @nil (cstr * entry)) as (_ & EU & _); auto.
    pose proof (looked_user (tool_name tool) ubs a (ause (ainit a) (tool_name tool))) as LU.
    destruct (abinds_user (ause (ainit a) (tool_name tool)) (tool_name tool) ubs) as [a' f]. cbn [fst] in *. apply Call; [|rewrite EU; auto].
    apply LU. eapply looked_same; [exact LI|..]; reflexivity.
  - apply Call; [|auto]. eapply looked_same; [exact LI|..]; reflexivity.
  - apply Call; auto.
  - destruct I as [I1 I2]. split; [split; auto|]. intros n. specialize (I1 n). destruct (a_stack a n); [auto|]. destruct (a_orig a n); auto.
  - destruct I as [I1 I2]. split; [split; auto|]. intros n. specialize (I1 n). cbn [a_orig a_stack]. destruct (a_stack a n); [auto|]. destruct (a_orig a n); auto.
  - destruct I as [I1 I2]. cbn [maps_after]. destruct (a_init a) eqn:E.
    + split; [split|]; cbn [aresolve a_stack a_orig a_init].
      * intros n Hn. rewrite Hn, (I1 n Hn). auto.
      * congruence.
      * intros n. specialize (I1 n). destruct (a_stack a n); [rewrite I1; auto|]. auto.
    + split; [split; auto|]. intros n. rewrite (I2 eq_refl n). rewrite (I1 n) by auto. auto.
  - destruct I as [I1 I2]. split; [split; auto|]. intros n. specialize (I1 n). cbn [a_orig a_stack]. destruct (a_stack a n); [auto|]. destruct (a_orig a n); auto.
Qed.

Lemma run_oinv ops : forall a, oinv a -> oinv (fst (arun a ops)).
Proof.
  induction ops as [|o r IH]; intros a I; [auto|]. cbn [SpecCore.arun]. destruct (step_orig a o I) as [I1 _]. destruct (astep a o) as [a1 x]. cbn [fst] in I1.
  specialize (IH a1 I1). destruct (arun a1 r). auto.
Qed.
Lemma a0_oinv maps : oinv (a0 maps).
Proof. split; auto. Qed.

Lemma orig_stays ops n x : forall a, oinv a -> a_orig a n = Some x -> a_orig (fst (arun a ops)) n = Some x.
Proof.
  induction ops as [|o r IH]; intros a I H; [auto|]. cbn [SpecCore.arun]. destruct (step_orig a o I) as [I1 H1]. specialize (H1 n). destruct (astep a o) as [a1 y]. cbn [fst] in *.
  specialize (IH a1 I1). destruct (arun a1 r). cbn [fst] in *. apply IH. rewrite H1, H. destruct (a_stack a n) eqn:E; [|auto]. destruct I as [I _]. rewrite (I n E) in H. discriminate.
Qed.

Lemma snoc_inj {A} (l l' : list A) x y : l ++ [x] = l' ++ [y] -> l = l' /\ x = y.
Proof. apply app_inj_tail. Qed.

Lemma orig_found maps ops n x : a_orig (fst (arun (a0 maps) ops)) n = Some x <-> found_first e ex maps ops n x.
Proof.
  revert x. induction ops as [|o l IH] using rev_ind; intros x.
  - split; [discriminate|]. intros (l1 & o & l2 & E & _). destruct l1; discriminate.
  - rewrite arun_app. cbn [fst SpecCore.arun]. set (a := fst (arun (a0 maps) l)) in *.
    assert (I : oinv a) by (apply run_oinv, a0_oinv). destruct (step_orig a o I) as [_ H]. specialize (H n).
    assert (Es : forall r, fst (let (a1, x0) := astep a o in let (a2, xs) := arun a1 r in (a2, x0 :: xs)) = fst (arun (fst (astep a o)) r)).
    { intros r. destruct (astep a o) as [a1 y]. cbn. destruct (arun a1 r); reflexivity. }
    replace (fst (let (a1, x0) := astep a o in (a1, [x0]))) with (fst (astep a o)) by (destruct (astep a o); reflexivity).
    assert (E1 : a_stack a n = [] <-> ~ wrapped e l n) by apply stack_empty.
    assert (E2 : a_stack (fst (astep a o)) n = [] <-> ~ wrapped e (l ++ [o]) n).
    { rewrite <- (stack_empty maps). rewrite arun_app. cbn [fst SpecCore.arun]. fold a. destruct (astep a o); tauto. }
    assert (EM : maps_after (a_maps a) [o] = maps_after maps (l ++ [o])).
    { unfold a. rewrite run_maps, maps_after_app. reflexivity. }
    rewrite EM in H.
    assert (Dw : wrapped e l n \/ ~ wrapped e l n).
    { unfold wrapped. destruct (installed e l n); [right; auto|left; discriminate]. }
    assert (Old : found_first e ex maps l n x -> found_first e ex maps (l ++ [o]) n x).
    { intros (l1 & p & l2 & -> & A & B & C). exists l1, p, (l2 ++ [o]). rewrite <- app_assoc. auto. }
    assert (New : found_first e ex maps (l ++ [o]) n x <-> found_first e ex maps l n x \/
              (looks_up e l o n /\ first_export ex (maps_after maps (l ++ [o])) n = Some x /\ forall y, ~ found_first e ex maps l n y)).
    { split.
      - intros (l1 & p & l2 & E & A & B & C). destruct l2 as [|q l2 _] using rev_ind.
        + change (l1 ++ [p]) with (l1 ++ [p]) in E. apply snoc_inj in E. destruct E as [-> ->]. right. split; [auto|]. split; [auto|].
          intros y (k1 & q & k2 & E & A' & B' & C'). specialize (C _ _ _ E A'). congruence.
        + rewrite app_comm_cons, app_assoc in E. apply snoc_inj in E. destruct E as [-> ->]. left. exists l1, p, l2. auto.
      - intros [F|(A & B & C)]; [auto|]. exists l, o, []. split; [auto|]. split; [auto|]. split; [auto|]. intros k1 p k2 Ek Hk.
        destruct (first_export ex (maps_after maps (k1 ++ [p])) n) as [y|] eqn:Ey; [|auto]. exfalso.
        assert (Hy : exists k1 p k2 y, l = k1 ++ p :: k2 /\ looks_up e k1 p n /\ first_export ex (maps_after maps (k1 ++ [p])) n = Some y) by eauto 8.
        clear - Hy C. revert C.
        assert (G : forall l, (exists k1 p k2 y, l = k1 ++ p :: k2 /\ looks_up e k1 p n /\ first_export ex (maps_after maps (k1 ++ [p])) n = Some y) -> exists y, found_first e ex maps l n y).
        { clear. induction l as [|o l IH] using rev_ind; intros (k1 & p & k2 & y & E & A & B); [destruct k1; discriminate|].
          assert (D : (exists k1 p k2 y, l = k1 ++ p :: k2 /\ looks_up e k1 p n /\ first_export ex (maps_after maps (k1 ++ [p])) n = Some y) \/
                      (forall k1 p k2, l = k1 ++ p :: k2 -> looks_up e k1 p n -> first_export ex (maps_after maps (k1 ++ [p])) n = None)).
          { clear. induction l as [|o l IH] using rev_ind; [right; intros [|]; discriminate|]. destruct IH as [(k1 & p & k2 & y & -> & A & B)|IH].
            - left. exists k1, p, (k2 ++ [o]), y. rewrite <- app_assoc. auto.
            - assert (Dl : looks_up e l o n \/ ~ looks_up e l o n).
              { unfold looks_up, wrapped. destruct (installed e l n); destruct (installed e (l ++ [o]) n); destruct o; try (left; left; split; [reflexivity|discriminate]);
                  try (right; intros [[? ?]|[? ?]]; congruence); try (left; right; split; [intros X; apply X; reflexivity|discriminate]);
                  right; intros [[? X]|[X Y]]; try discriminate; try (apply X; discriminate); try (apply X; reflexivity); try (apply Y; reflexivity). }
              destruct (first_export ex (maps_after maps (l ++ [o])) n) as [y|] eqn:Ey.
              + destruct Dl as [Dl|Dl]; [left; exists l, o, [], y; auto|]. right. intros k1 p k2 E A. destruct k2 as [|q k2 _] using rev_ind.
                * apply snoc_inj in E. destruct E as [-> ->]. contradiction.
                * rewrite app_comm_cons, app_assoc in E. apply snoc_inj in E. destruct E as [-> ->]. eauto.
              + right. intros k1 p k2 E A. destruct k2 as [|q k2 _] using rev_ind.
                * apply snoc_inj in E. destruct E as [-> ->]. auto.
                * rewrite app_comm_cons, app_assoc in E. apply snoc_inj in E. destruct E as [-> ->]. eauto. }
          destruct D as [D|D].
          - destruct (IH D) as (z & l1 & q & l2 & -> & A1 & B1 & C1). exists z, l1, q, (l2 ++ [o]). rewrite <- app_assoc. auto.
          - destruct k2 as [|q k2 _] using rev_ind.
            + apply snoc_inj in E. destruct E as [-> ->]. exists y, k1, p, []. auto.
            + rewrite app_comm_cons, app_assoc in E. apply snoc_inj in E. destruct E as [-> ->]. specialize (D _ _ _ eq_refl A). congruence. }
        intros C. destruct (G l Hy) as (z & Hz). exact (C z Hz). }
    rewrite New. clear New Old Es. rewrite H.
    destruct (a_stack a n) as [|z s] eqn:Ea.
    + destruct (a_stack (fst (astep a o)) n) as [|z' s'] eqn:Ea'.
      * split; [discriminate|]. intros [F|(L & _)].
        -- apply IH in F. destruct I as [I _]. rewrite (I n Ea) in F. discriminate.
        -- exfalso. destruct L as [[_ L]|[_ L]]; [apply (proj1 E1 eq_refl); auto|]. apply (proj1 E2 eq_refl); auto.
      * split.
        -- intros F. right. split.
           ++ right. split; [apply E1; auto|]. intros X. assert (Hw : ~ wrapped e (l ++ [o]) n) by (unfold wrapped; rewrite X; auto). apply E2 in Hw. discriminate.
           ++ split; [auto|]. intros y Hy. apply IH in Hy. destruct I as [I _]. rewrite (I n Ea) in Hy. discriminate.
        -- intros [F|(_ & F & _)]; [|auto]. apply IH in F. destruct I as [I _]. rewrite (I n Ea) in F. discriminate.
    + assert (W : wrapped e l n). { destruct Dw as [W|W]; [auto|]. apply E1 in W. discriminate. }
      destruct (a_orig a n) as [y|] eqn:Eo.
      * split; [intros F; left; apply IH; congruence|]. intros [F|(_ & _ & F)]; [apply IH in F; congruence|]. exfalso. apply (F y). apply IH. auto.
      * assert (NF : forall y, ~ found_first e ex maps l n y) by (intros y F; apply IH in F; congruence).
        split.
        -- intros F. destruct o; try discriminate. right. split; [left; auto|auto].
        -- intros [F|(L & F & _)]; [destruct (NF _ F)|]. destruct L as [[-> _]|[L _]]; [auto|contradiction].
Qed.
End Facts.

(** *** return codes *)
Section Codes.
Context (e : env) (ex : lmap -> cstr -> option Z) (ins : list (cstr * Z) -> entry -> list entry -> list entry).
Context (Hins : forall m x s, ins m x s <> []).

Lemma abinds_flag t ubs : forall a, snd (abinds ins ex a t ubs) = true <->
  exists u, In u ubs /\ a_stack a (ub_name u) = [] /\ first_export ex (a_maps a) (ub_name u) = None.
Proof.
  induction ubs as [|u r IH]; intros a; cbn [abinds].
  - split; [discriminate|]. intros (u & [] & _).
  - pose proof (abind_stack_gen ex ins a t u) as HS. destruct (frame_abind ex ins a t u) as (_ & _ & _ & HM).
    assert (HF : snd (abind ins ex a t u) = true <-> a_stack a (ub_name u) = [] /\ first_export ex (a_maps a) (ub_name u) = None).
    { unfold abind. destruct (a_stack a (ub_name u)); cbn; [destruct (first_export ex (a_maps a) (ub_name u))|]; split; intros; try discriminate; try tauto; destruct H; discriminate. }
    destruct (abind ins ex a t u) as [a1 f1]. cbn [fst snd] in *. specialize (IH a1). destruct (abinds ins ex a1 t r) as [a2 f2]. cbn [snd] in *.
    rewrite orb_true_iff, HF, IH. split.
    + intros [[A B]|(v & A & B & C)]; [exists u; split; [left; auto|auto]|]. rewrite HS in B. rewrite HM in C. unfold cupd in B.
      destruct (cstr_eqb (ub_name v) (ub_name u)); [destruct (Hins _ _ _ B)|]. exists v. split; [right; auto|auto].
    + intros (v & [<-|A] & B & C); [left; auto|]. destruct (cstr_dec (ub_name v) (ub_name u)) as [E|E]; [left; rewrite <- E; auto|].
      right. exists v. rewrite HS, HM. unfold cupd. rewrite (cstr_eqb_neq _ _ E). auto.
Qed.

Lemma abinds_user_plain t ubs : forall a, (forall u, In u ubs -> ub_name u <> n_main) \/ a_main a = true -> abinds_user ins ex e a t ubs = abinds ins ex a t ubs.
Proof.
  induction ubs as [|u r IH]; intros a H; cbn [abinds_user abinds]; [auto|].
  assert (E : amain ins ex e a (ub_name u) = a).
  { unfold amain. destruct H as [H|H]; [rewrite (cstr_eqb_neq (ub_name u)) by (apply H; left; auto); auto|rewrite H, andb_false_r; auto]. }
  rewrite E. destruct (frame_abind ex ins a t u) as (_ & HM & _). destruct (abind ins ex a t u) as [a1 f1]. cbn [fst] in HM.
  rewrite IH; [auto|]. destruct H as [H|H]; [left; intros; apply H; right; auto|right; congruence].
Qed.
End Codes.
