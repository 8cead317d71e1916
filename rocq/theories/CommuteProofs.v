(** Grouping and order of calls of gotcha_wrap. *)
From Verif Require Import Base ListFacts HashModel HashProofs SpecHash HashTrace ElfModel SpecElf ToolModel CoreModel SpecCore SpecRun SpecSync SpecGroup
  ToolProofs CoreMaps CoreRel CoreLib CoreStep CoreWrap CoreLoop CoreMain CoreEnv CoreSpec CoreFacts CoreHist.
From Coq Require Import Permutation.

Definition by_prio (ins : list (cstr * Z) -> entry -> list entry -> list entry) : Prop :=
  forall m m' x s, (forall t, prio_of m t = prio_of m' t) -> ins m x s = ins m' x s.
Lemma place_by_prio : by_prio place.
Proof. intros m m' x s H. induction s as [|y r IH]; cbn [place]; [reflexivity|]. rewrite !H, IH. reflexivity. Qed.
Lemma walk_by_prio m m' x : (forall t, prio_of m t = prio_of m' t) -> forall r h, ins_walk m x h r = ins_walk m' x h r.
Proof. intros H. induction r as [|y r IH]; intros h; cbn [ins_walk]; [reflexivity|]. rewrite !H, IH. reflexivity. Qed.
Lemma ins_c_by_prio : by_prio ins_c.
Proof. intros m m' x s H. destruct s as [|y r]; cbn [ins_c]; [reflexivity|]. rewrite !H, (walk_by_prio m m' x H). reflexivity. Qed.

Section Commute.
Context (e : env) (ex : lmap -> cstr -> option Z) (ins : list (cstr * Z) -> entry -> list entry -> list entry) (BP : by_prio ins).
Notation abind := (abind ins ex).
Notation abinds := (abinds ins ex).
Notation amain := (amain ins ex e).
Notation abinds_user := (abinds_user ins ex e).
Notation ainit := (ainit ins ex e).
Notation awrap := (awrap ins ex e).
Notation aresolve := (aresolve ex).
Notation astep := (astep ins ex e).
Notation arun := (arun ins ex e).

Record sim (a a' : astate) : Prop := {
  sm_init : a_init a = a_init a';
  sm_main : a_main a = a_main a';
  sm_tools : forall t, aget cstr_eqb (a_tools a) t = aget cstr_eqb (a_tools a') t;
  sm_stack : forall n, a_stack a n = a_stack a' n;
  sm_orig : forall n, a_orig a n = a_orig a' n;
  sm_maps : a_maps a = a_maps a' }.
Lemma sim_refl a : sim a a.
Proof. constructor; auto. Qed.
Lemma sim_sym a b : sim a b -> sim b a.
Proof. intros [A B C D E F]. constructor; auto. Qed.
Lemma sim_trans a b c : sim a b -> sim b c -> sim a c.
Proof. intros [A B C D E F] [A' B' C' D' E' F']. constructor; intros; etransitivity; eauto. Qed.
Lemma sim_prio a b t : sim a b -> prio_of (a_tools a) t = prio_of (a_tools b) t.
Proof. intros H. unfold prio_of. rewrite (sm_tools _ _ H). reflexivity. Qed.

Ltac fields := cbn [ause aresolve a_init a_main a_tools a_stack a_orig a_maps fst snd].

Lemma bind_stack a t u n : a_stack (fst (abind a t u)) n = if cstr_eqb n (ub_name u) then ins (a_tools a) (mkE t (ub_wrapper u) (ub_handle u)) (a_stack a n) else a_stack a n.
Proof.
  unfold SpecCore.abind. destruct (cstr_eqb n (ub_name u)) eqn:E.
  - apply cstr_eqb_ok in E. subst n. destruct (a_stack a (ub_name u)) eqn:S; fields; rewrite cupd_eq; rewrite ?S; reflexivity.
  - destruct (a_stack a (ub_name u)); fields; unfold cupd; rewrite E; reflexivity.
Qed.
Lemma bind_orig a t u n : a_orig (fst (abind a t u)) n =
  if cstr_eqb n (ub_name u) then match a_stack a n with [] => first_export ex (a_maps a) n | _ => a_orig a n end else a_orig a n.
Proof.
  unfold SpecCore.abind. destruct (cstr_eqb n (ub_name u)) eqn:E.
  - apply cstr_eqb_ok in E. subst n. destruct (a_stack a (ub_name u)) eqn:S; fields; rewrite ?cupd_eq; reflexivity.
  - destruct (a_stack a (ub_name u)); fields; unfold cupd; rewrite ?E; reflexivity.
Qed.
Lemma bind_flag a t u : snd (abind a t u) = match a_stack a (ub_name u) with [] => match first_export ex (a_maps a) (ub_name u) with None => true | Some _ => false end | _ => false end.
Proof. unfold SpecCore.abind. destruct (a_stack a (ub_name u)); reflexivity. Qed.
Lemma bind_flag_eq a b t t' u : a_stack a (ub_name u) = a_stack b (ub_name u) -> a_maps a = a_maps b -> snd (abind a t u) = snd (abind b t' u).
Proof. intros H1 H2. rewrite !bind_flag, H1, H2. reflexivity. Qed.
Lemma flag_sim a b t u : sim a b -> snd (abind a t u) = snd (abind b t u).
Proof. intros H. apply bind_flag_eq; [apply sm_stack, H|apply (sm_maps _ _ H)]. Qed.

(** transformers of the state *)
Definition proper (f : astate -> astate) : Prop := forall a b, sim a b -> sim (f a) (f b).
Definition swaps (f g : astate -> astate) : Prop := forall a, sim (f (g a)) (g (f a)).
Lemma swaps_sym f g : swaps f g -> swaps g f.
Proof. intros H a. apply sim_sym, H. Qed.
Lemma proper_comp f g : proper f -> proper g -> proper (fun a => f (g a)).
Proof. intros F G a b H. apply F, G, H. Qed.
Lemma swaps_comp f g h : proper g -> swaps f g -> swaps f h -> swaps f (fun a => g (h a)).
Proof. intros G A B a. eapply sim_trans; [apply A|]. apply G, B. Qed.
Lemma swaps_id f : swaps f (fun a => a).
Proof. intros a. apply sim_refl. Qed.

Definition Bd t u := fun a => fst (abind a t u).
Definition Us t := fun a => ause a t.
Definition Fl := fun a => mkA (a_init a) true (a_tools a) (a_stack a) (a_orig a) (a_maps a).
Definition Gm := fun a => Bd n_gotcha (mkUB n_main (e_w_main e) (e_h_main e)) (Us n_gotcha (Bd n_gotcha (mkUB n_libc_start_main (e_w_libc e) (e_h_libc e)) (Us n_gotcha (Fl a)))).
Definition Mn n := fun a => amain a n.
Lemma Mn_eq n a : Mn n a = if cstr_eqb n n_main && negb (a_main a) then Gm a else a.
Proof.
  unfold Mn, SpecCore.amain. destruct (cstr_eqb n n_main && negb (a_main a)); [|reflexivity].
  unfold Gm, Bd, Us, Fl, libc_binds, main_binds. cbn [SpecCore.abinds].
  match goal with |- context [SpecCore.abind ins ex (ause (mkA ?i ?m ?t ?s ?o ?p) n_gotcha) n_gotcha ?u] => destruct (SpecCore.abind ins ex (ause (mkA i m t s o p) n_gotcha) n_gotcha u) as [a1 f1] end. fields.
  match goal with |- context [SpecCore.abind ins ex (ause a1 n_gotcha) n_gotcha ?u] => destruct (SpecCore.abind ins ex (ause a1 n_gotcha) n_gotcha u) as [a2 f2] end. reflexivity.
Qed.

Lemma Us_proper t : proper (Us t).
Proof. intros a b [A B C D E F]. constructor; unfold Us; fields; auto. intros t'. rewrite !aget_use, C. reflexivity. Qed.
Lemma Bd_proper t u : proper (Bd t u).
Proof.
  intros a b H. pose proof H as [A B C D E F]. unfold Bd.
  destruct (frame_abind ex ins a t u) as (A1 & B1 & C1 & D1). destruct (frame_abind ex ins b t u) as (A2 & B2 & C2 & D2).
  constructor; rewrite ?A1, ?A2, ?B1, ?B2, ?C1, ?C2, ?D1, ?D2; auto; intros n.
  - rewrite !bind_stack, D. rewrite (BP _ _ _ _ (fun t => sim_prio a b t H)). reflexivity.
  - rewrite !bind_orig, D, E, F. reflexivity.
Qed.
Lemma Fl_proper : proper Fl.
Proof. intros a b [A B C D E F]. constructor; unfold Fl; fields; auto. Qed.
Lemma Gm_proper : proper Gm.
Proof. intros a b H. unfold Gm. apply Bd_proper, Us_proper, Bd_proper, Us_proper, Fl_proper, H. Qed.
Lemma Mn_proper n : proper (Mn n).
Proof. intros a b H. rewrite !Mn_eq, <- (sm_main _ _ H). destruct (cstr_eqb n n_main && negb (a_main a)); [apply Gm_proper|]; exact H. Qed.

Lemma Us_Us t t' : swaps (Us t) (Us t').
Proof.
  intros a. constructor; unfold Us; fields; auto. intros n. rewrite !aget_use. destruct (aget cstr_eqb (a_tools a) n); [reflexivity|].
  destruct (cstr_eqb t n), (cstr_eqb t' n); reflexivity.
Qed.
Lemma Us_Fl t : swaps (Us t) Fl.
Proof. intros a. apply sim_refl. Qed.
Lemma Us_Bd t t' u : swaps (Us t) (Bd t' u).
Proof.
  intros a. unfold Us, Bd. destruct (frame_abind ex ins a t' u) as (A1 & B1 & C1 & D1). destruct (frame_abind ex ins (ause a t) t' u) as (A2 & B2 & C2 & D2).
  constructor; fields; rewrite ?A1, ?A2, ?B1, ?B2, ?C1, ?C2, ?D1, ?D2; auto; intros n.
  - rewrite !bind_stack. fields. rewrite (BP (use_tool (a_tools a) t) (a_tools a)); [reflexivity|]. intros; apply prio_use.
  - rewrite !bind_orig. reflexivity.
Qed.
Lemma Fl_Bd t u : swaps Fl (Bd t u).
Proof. intros a. unfold Fl, Bd, SpecCore.abind. fields. destruct (a_stack a (ub_name u)); apply sim_refl. Qed.
Lemma Bd_Bd t u t' u' : ub_name u <> ub_name u' -> swaps (Bd t u) (Bd t' u').
Proof.
  intros N a. unfold Bd. destruct (frame_abind ex ins a t' u') as (A1 & B1 & C1 & D1). destruct (frame_abind ex ins a t u) as (A2 & B2 & C2 & D2).
  destruct (frame_abind ex ins (fst (abind a t' u')) t u) as (A3 & B3 & C3 & D3). destruct (frame_abind ex ins (fst (abind a t u)) t' u') as (A4 & B4 & C4 & D4).
  constructor; try congruence; intros n; rewrite ?bind_stack, ?bind_orig, ?bind_stack, ?C1, ?C2, ?D1, ?D2;
    destruct (cstr_eqb n (ub_name u)) eqn:E1, (cstr_eqb n (ub_name u')) eqn:E2; try reflexivity; exfalso; apply N; apply cstr_eqb_ok in E1; apply cstr_eqb_ok in E2; congruence.
Qed.
Lemma Us_Gm t : swaps (Us t) Gm.
Proof.
  unfold Gm.
  apply (swaps_comp (Us t) (Bd n_gotcha _) (fun a => Us n_gotcha (Bd n_gotcha _ (Us n_gotcha (Fl a))))); [apply Bd_proper|apply Us_Bd|].
  apply (swaps_comp (Us t) (Us n_gotcha) (fun a => Bd n_gotcha _ (Us n_gotcha (Fl a)))); [apply Us_proper|apply Us_Us|].
  apply (swaps_comp (Us t) (Bd n_gotcha _) (fun a => Us n_gotcha (Fl a))); [apply Bd_proper|apply Us_Bd|].
  apply (swaps_comp (Us t) (Us n_gotcha) Fl); [apply Us_proper|apply Us_Us|apply Us_Fl].
Qed.
Lemma Bd_Gm t u : ub_name u <> n_main -> ub_name u <> n_libc_start_main -> swaps (Bd t u) Gm.
Proof.
  intros N1 N2. unfold Gm.
  apply (swaps_comp (Bd t u) (Bd n_gotcha _) (fun a => Us n_gotcha (Bd n_gotcha _ (Us n_gotcha (Fl a))))); [apply Bd_proper|apply Bd_Bd; exact N1|].
  apply (swaps_comp (Bd t u) (Us n_gotcha) (fun a => Bd n_gotcha _ (Us n_gotcha (Fl a)))); [apply Us_proper|apply swaps_sym, Us_Bd|].
  apply (swaps_comp (Bd t u) (Bd n_gotcha _) (fun a => Us n_gotcha (Fl a))); [apply Bd_proper|apply Bd_Bd; exact N2|].
  apply (swaps_comp (Bd t u) (Us n_gotcha) Fl); [apply Us_proper|apply swaps_sym, Us_Bd|apply swaps_sym, Fl_Bd].
Qed.
Lemma Us_Mn t n : swaps (Us t) (Mn n).
Proof. intros a. rewrite !Mn_eq. change (a_main (Us t a)) with (a_main a). destruct (cstr_eqb n n_main && negb (a_main a)); [apply Us_Gm|apply sim_refl]. Qed.
Lemma Bd_Mn t u n : ub_name u <> n -> (n = n_main -> ub_name u <> n_libc_start_main) -> swaps (Bd t u) (Mn n).
Proof.
  intros N1 N2 a. rewrite !Mn_eq. destruct (frame_abind ex ins a t u) as (_ & B & _). change (a_main (Bd t u a)) with (a_main (fst (abind a t u))). rewrite B.
  destruct (cstr_eqb n n_main) eqn:E; cbn [andb]; [|apply sim_refl]. apply cstr_eqb_ok in E. destruct (negb (a_main a)); [|apply sim_refl]. apply Bd_Gm; [congruence|auto].
Qed.
Lemma Mn_Mn n n' : n <> n' -> swaps (Mn n) (Mn n').
Proof.
  intros N a. destruct (cstr_eqb n n_main) eqn:E.
  - apply cstr_eqb_ok in E. subst n. assert (E' : cstr_eqb n' n_main = false) by (apply cstr_eqb_neq; congruence).
    rewrite (Mn_eq n' a), (Mn_eq n' (Mn n_main a)), E'. apply sim_refl.
  - rewrite (Mn_eq n a), (Mn_eq n (Mn n' a)), E. apply sim_refl.
Qed.

(** the bindings of a user's call *)
Definition Ur t l := fun a => fst (abinds_user a t l).
Lemma Ur_cons t u r a : Ur t (u :: r) a = Ur t r (Bd t u (Mn (ub_name u) a)).
Proof.
  unfold Ur, Bd, Mn. cbn [SpecCore.abinds_user]. destruct (abind (amain a (ub_name u)) t u) as [a1 f1]. fields. destruct (abinds_user a1 t r). reflexivity.
Qed.
Lemma user_flag_cons t u r a : snd (abinds_user a t (u :: r)) = snd (abind (Mn (ub_name u) a) t u) || snd (abinds_user (Bd t u (Mn (ub_name u) a)) t r).
Proof. unfold Bd, Mn. cbn [SpecCore.abinds_user]. destruct (abind (amain a (ub_name u)) t u) as [a1 f1]. fields. destruct (abinds_user a1 t r). reflexivity. Qed.
Lemma Ur_proper t l : proper (Ur t l).
Proof. induction l as [|u r IH]; intros a b H; [exact H|]. rewrite !Ur_cons. apply IH, Bd_proper, Mn_proper, H. Qed.
Lemma user_flag_sim t l : forall a b, sim a b -> snd (abinds_user a t l) = snd (abinds_user b t l).
Proof.
  induction l as [|u r IH]; intros a b H; [reflexivity|]. rewrite !user_flag_cons. apply (Mn_proper (ub_name u)) in H. rewrite (flag_sim _ _ t u H).
  rewrite (IH _ _ (Bd_proper t u _ _ H)). reflexivity.
Qed.
Lemma swaps_Ur f t l : proper f -> (forall u, In u l -> swaps f (Bd t u) /\ swaps f (Mn (ub_name u))) -> swaps f (Ur t l).
Proof.
  intros P. induction l as [|u r IH]; intros H a; [apply sim_refl|]. rewrite !Ur_cons. destruct (H u (or_introl eq_refl)) as [H1 H2].
  eapply sim_trans; [apply IH; intros; apply H; right; auto|]. apply Ur_proper. eapply sim_trans; [apply H1|]. apply Bd_proper, H2.
Qed.
(** [f] does not affect whether the function of [u] is found *)
Definition blind (f : astate -> astate) (u : ubind) : Prop := forall a t, snd (abind (f a) t u) = snd (abind a t u).
Lemma blind_Us t u : blind (Us t) u.
Proof. intros a t'. apply bind_flag_eq; reflexivity. Qed.
Lemma blind_Bd t u u' : ub_name u <> ub_name u' -> blind (Bd t u) u'.
Proof. intros N a t'. apply bind_flag_eq; unfold Bd; [rewrite bind_stack, cstr_eqb_neq by congruence; reflexivity|apply (frame_abind ex ins a t u)]. Qed.
Lemma blind_Fl u : blind Fl u.
Proof. intros a t. apply bind_flag_eq; reflexivity. Qed.
Lemma blind_comp f g u : blind f u -> blind g u -> blind (fun a => f (g a)) u.
Proof. intros F G a t. rewrite F. apply G. Qed.
Lemma blind_Mn n u : ub_name u <> n -> (n = n_main -> ub_name u <> n_libc_start_main) -> blind (Mn n) u.
Proof.
  intros N1 N2 a t. rewrite Mn_eq. destruct (cstr_eqb n n_main) eqn:E; cbn [andb]; [|reflexivity]. apply cstr_eqb_ok in E. destruct (negb (a_main a)); [|reflexivity].
  unfold Gm. rewrite blind_Bd by (cbn [ub_name]; congruence). rewrite blind_Us. rewrite blind_Bd by (cbn [ub_name]; apply not_eq_sym; auto). rewrite blind_Us. apply blind_Fl.
Qed.
Lemma blind_Ur t l u : (forall u', In u' l -> ub_name u' <> ub_name u /\ (ub_name u' = n_main -> ub_name u <> n_libc_start_main)) -> blind (Ur t l) u.
Proof.
  induction l as [|u' r IH]; intros H a t'; [reflexivity|]. rewrite Ur_cons. destruct (H u' (or_introl eq_refl)) as [H1 H2].
  rewrite IH by (intros; apply H; right; auto). rewrite blind_Bd by auto. apply blind_Mn; auto.
Qed.
Lemma user_flag_blind f t l : proper f -> (forall u, In u l -> swaps f (Bd t u) /\ swaps f (Mn (ub_name u)) /\ blind f u) ->
  forall a, snd (abinds_user (f a) t l) = snd (abinds_user a t l).
Proof.
  intros P. induction l as [|u r IH]; intros H a; [reflexivity|]. rewrite !user_flag_cons. destruct (H u (or_introl eq_refl)) as (H1 & H2 & H3).
  rewrite <- (flag_sim _ _ t u (H2 a)), H3. f_equal. rewrite <- (IH (fun v Hv => H v (or_intror Hv)) (Bd t u (Mn (ub_name u) a))).
  apply user_flag_sim. eapply sim_trans; [apply Bd_proper, sim_sym, H2|apply sim_sym, H1].
Qed.

Lemma Ur_parts t1 l1 t2 l2 u : disjoint l1 l2 -> In u l2 -> swaps (Ur t1 l1) (Bd t2 u) /\ swaps (Ur t1 l1) (Mn (ub_name u)) /\ blind (Ur t1 l1) u.
Proof.
  intros D Hu. split; [|split].
  - apply swaps_sym, swaps_Ur; [apply Bd_proper|]. intros v Hv. destruct (D v u Hv Hu) as (N & N1 & N2). split; [apply Bd_Bd; congruence|apply Bd_Mn; auto].
  - apply swaps_sym, swaps_Ur; [apply Mn_proper|]. intros v Hv. destruct (D v u Hv Hu) as (N & N1 & N2). split; [apply swaps_sym, Bd_Mn; auto|apply Mn_Mn; auto].
  - apply blind_Ur. intros v Hv. destruct (D v u Hv Hu) as (N & N1 & N2). auto.
Qed.
Lemma Us_Ur t t' l : swaps (Us t) (Ur t' l).
Proof. apply swaps_Ur; [apply Us_proper|]. intros u _. split; [apply Us_Bd|apply Us_Mn]. Qed.
Lemma user_flag_Us t t' l a : snd (abinds_user (Us t a) t' l) = snd (abinds_user a t' l).
Proof. apply (user_flag_blind (Us t)); [apply Us_proper|]. intros u _. split; [apply Us_Bd|]. split; [apply Us_Mn|apply blind_Us]. Qed.

Definition tl (t : option cstr) : cstr := match t with Some t => t | None => n_unspecified end.
Lemma wrap_eq a l t : awrap a l t = (Ur (tl t) l (Us (tl t) (ainit a)), snd (abinds_user (Us (tl t) (ainit a)) (tl t) l)).
Proof. unfold SpecCore.awrap, Ur, Us, tl. destruct (abinds_user _ _ l); reflexivity. Qed.
Lemma Ur_init t l : forall a, a_init (Ur t l a) = a_init a.
Proof.
  induction l as [|u r IH]; intros a; [reflexivity|]. rewrite Ur_cons, IH. unfold Bd, Mn. destruct (frame_abind ex ins (amain a (ub_name u)) t u) as (-> & _). apply (frame_amain e ex ins a (ub_name u)).
Qed.
Lemma init_init a : a_init (ainit a) = true.
Proof. unfold SpecCore.ainit. destruct (a_init a) eqn:E; [exact E|]. match goal with |- context [SpecCore.abinds _ _ ?x n_gotcha ?l] => destruct (frame_abinds ex ins n_gotcha l x) as (-> & _) end. reflexivity. Qed.
Lemma init_again a : a_init a = true -> ainit a = a.
Proof. unfold SpecCore.ainit. intros ->. reflexivity. Qed.

(** two calls without a function in common *)
Lemma wrap_swap a l1 t1 l2 t2 : disjoint l1 l2 ->
  sim (fst (awrap (fst (awrap a l1 t1)) l2 t2)) (fst (awrap (fst (awrap a l2 t2)) l1 t1)) /\
  snd (awrap (fst (awrap a l1 t1)) l2 t2) = snd (awrap a l2 t2) /\ snd (awrap a l1 t1) = snd (awrap (fst (awrap a l2 t2)) l1 t1).
Proof.
  intros D. assert (D' : disjoint l2 l1) by (intros u v Hu Hv; destruct (D v u Hv Hu) as (X & Y & Z); auto).
  pose proof (init_init a) as I. rewrite !wrap_eq. fields. set (b := ainit a) in *.
  rewrite (init_again (Ur (tl t1) l1 (Us (tl t1) b))), (init_again (Ur (tl t2) l2 (Us (tl t2) b))) by (rewrite Ur_init; exact I).
  assert (W : forall t1 t2 l1 l2, disjoint l1 l2 -> snd (abinds_user (Us t2 (Ur t1 l1 (Us t1 b))) t2 l2) = snd (abinds_user (Us t2 b) t2 l2)).
  { clear - BP. intros t1 t2 l1 l2 D. rewrite !user_flag_Us. rewrite (user_flag_blind (Ur t1 l1)); [apply user_flag_Us|apply Ur_proper|]. intros u Hu. apply (Ur_parts t1 l1 t2 l2 u D Hu). }
  split; [|split; [apply W; auto|symmetry; apply W; auto]].
  assert (S : swaps (Ur (tl t2) l2) (Ur (tl t1) l1)) by (apply swaps_Ur; [apply Ur_proper|]; intros u Hu; destruct (Ur_parts (tl t2) l2 (tl t1) l1 u D' Hu) as (X & Y & _); auto).
  eapply sim_trans; [apply Ur_proper, Us_Ur|]. eapply sim_trans; [apply S|]. apply Ur_proper.
  eapply sim_trans; [apply Ur_proper, Us_Us|]. apply sim_sym, Us_Ur.
Qed.

(** one call or two *)
Lemma user_app t l2 : forall l1 a, abinds_user a t (l1 ++ l2) = (fst (abinds_user (fst (abinds_user a t l1)) t l2), snd (abinds_user a t l1) || snd (abinds_user (fst (abinds_user a t l1)) t l2)).
Proof.
  induction l1 as [|u r IH]; intros a; cbn [SpecCore.abinds_user app]; [fields; destruct (abinds_user a t l2); reflexivity|].
  destruct (abind (amain a (ub_name u)) t u) as [a1 f1]. rewrite IH. destruct (abinds_user a1 t r) as [a2 f2]. fields. rewrite orb_assoc. reflexivity.
Qed.
Lemma use_twice t l a : sim (Us t (Ur t l (Us t a))) (Ur t l (Us t a)).
Proof.
  eapply sim_trans; [apply Us_Ur|]. apply Ur_proper. constructor; unfold Us; fields; auto. intros n. rewrite !aget_use.
  destruct (aget cstr_eqb (a_tools a) n); [reflexivity|]. destruct (cstr_eqb t n); reflexivity.
Qed.
Lemma wrap_split a l1 l2 t : sim (fst (awrap a (l1 ++ l2) t)) (fst (awrap (fst (awrap a l1 t)) l2 t)) /\
  snd (awrap a (l1 ++ l2) t) = snd (awrap a l1 t) || snd (awrap (fst (awrap a l1 t)) l2 t).
Proof.
  pose proof (init_init a) as I. rewrite !wrap_eq. fields. set (b := ainit a) in *.
  rewrite (init_again (Ur (tl t) l1 (Us (tl t) b))) by (rewrite Ur_init; exact I).
  unfold Ur at 1. rewrite user_app. fields. split.
  - apply (Ur_proper (tl t) l2), sim_sym, use_twice.
  - f_equal. apply user_flag_sim, sim_sym, use_twice.
Qed.

(** the rest of the history *)
Lemma init_proper a b : sim a b -> sim (ainit a) (ainit b).
Proof.
  intros H. unfold SpecCore.ainit. rewrite <- (sm_init _ _ H). destruct (a_init a); [exact H|]. unfold dl_binds. cbn [SpecCore.abinds].
  set (a0' := mkA true _ _ _ _ _). set (b0 := mkA true (a_main b) _ _ _ _). assert (H0 : sim a0' b0) by (destruct H; constructor; auto).
  apply (Us_proper n_gotcha) in H0. unfold Us in H0. set (u1 := mkUB n_dlopen _ _). set (u2 := mkUB n_dlsym _ _).
  apply (Bd_proper n_gotcha u1) in H0. apply (Bd_proper n_gotcha u2) in H0. unfold Bd in H0.
  destruct (abind (ause a0' n_gotcha) n_gotcha u1) as [a1 f1], (abind (ause b0 n_gotcha) n_gotcha u1) as [b1 g1]. cbn [fst] in *.
  destruct (abind a1 n_gotcha u2) as [a2 f2], (abind b1 n_gotcha u2) as [b2 g2]. exact H0.
Qed.
Lemma step_sim o a b : sim a b -> sim (fst (astep a o)) (fst (astep b o)) /\ snd (astep a o) = snd (astep b o).
Proof.
  intros H. destruct o as [ubs t|t v|t|f|libs mm| |keep mm]; cbn [SpecCore.astep].
  - rewrite !wrap_eq. fields. pose proof (Us_proper (tl t) _ _ (init_proper _ _ H)) as U. split; [apply Ur_proper, U|]. rewrite (user_flag_sim _ _ _ _ U). reflexivity.
  - pose proof (init_proper _ _ H) as [A B C D E F]. split; [|reflexivity]. constructor; fields; auto. intros n. rewrite !aget_set, !aget_use, C. reflexivity.
  - pose proof (init_proper _ _ H) as I. split; [exact I|]. fields. rewrite (sm_tools _ _ I). reflexivity.
  - split; [exact H|reflexivity].
  - destruct H as [A B C D E F]. split; [|reflexivity]. constructor; fields; auto. congruence.
  - split; [|reflexivity]. fields. rewrite <- (sm_init _ _ H). destruct (a_init a); [|exact H]. destruct H as [A B C D E F]. constructor; fields; auto. intros n. rewrite D, E, F. reflexivity.
  - destruct H as [A B C D E F]. split; [|reflexivity]. constructor; fields; auto. congruence.
Qed.
Lemma run_sim ops : forall a b, sim a b -> sim (fst (arun a ops)) (fst (arun b ops)) /\ snd (arun a ops) = snd (arun b ops).
Proof.
  induction ops as [|o r IH]; intros a b H; cbn [SpecCore.arun]; [auto|]. destruct (step_sim o a b H) as [S R].
  destruct (astep a o) as [a1 x], (astep b o) as [b1 y]. cbn [fst snd] in *. destruct (IH a1 b1 S) as [S' R']. destruct (arun a1 r), (arun b1 r). cbn [fst snd] in *. split; [auto|congruence].
Qed.
Lemma arun_cons a o r : arun a (o :: r) = (fst (arun (fst (astep a o)) r), snd (astep a o) :: snd (arun (fst (astep a o)) r)).
Proof. cbn [SpecCore.arun]. destruct (astep a o) as [a1 x]. fields. destruct (arun a1 r). reflexivity. Qed.
Lemma arun_length ops : forall a, length (snd (arun a ops)) = length ops.
Proof. induction ops as [|o r IH]; intros a; [reflexivity|]. rewrite arun_cons. cbn [snd length]. rewrite IH. reflexivity. Qed.
Lemma step_wrap a l t : astep a (OWrap l t) = (fst (awrap a l t), RCode (if snd (awrap a l t) then GOTCHA_FUNCTION_NOT_FOUND else GOTCHA_SUCCESS)).
Proof. cbn [SpecCore.astep]. destruct (awrap a l t). reflexivity. Qed.

Definition code (f : bool) : Z := if f then GOTCHA_FUNCTION_NOT_FOUND else GOTCHA_SUCCESS.
Lemma swap_run pre l1 t1 l2 t2 post a : disjoint l1 l2 ->
  exists r0 r1 r2 r3, length r0 = length pre /\
    snd (arun a (pre ++ OWrap l1 t1 :: OWrap l2 t2 :: post)) = r0 ++ RCode r1 :: RCode r2 :: r3 /\
    snd (arun a (pre ++ OWrap l2 t2 :: OWrap l1 t1 :: post)) = r0 ++ RCode r2 :: RCode r1 :: r3 /\
    sim (fst (arun a (pre ++ OWrap l1 t1 :: OWrap l2 t2 :: post))) (fst (arun a (pre ++ OWrap l2 t2 :: OWrap l1 t1 :: post))).
Proof.
  intros D. set (b := fst (arun a pre)). destruct (wrap_swap b l1 t1 l2 t2 D) as (S & F2 & F1). destruct (run_sim post _ _ S) as [S' R'].
  exists (snd (arun a pre)), (code (snd (awrap b l1 t1))), (code (snd (awrap b l2 t2))), (snd (arun (fst (awrap (fst (awrap b l1 t1)) l2 t2)) post)).
  split; [apply arun_length|].
  rewrite !arun_app. fold b. fields. rewrite !arun_cons, !step_wrap. fields. rewrite F2, <- F1, <- R'. auto.
Qed.
Lemma split_run pre l1 l2 t post a :
  exists r0 r1 r2 r3, length r0 = length pre /\
    snd (arun a (pre ++ OWrap (l1 ++ l2) t :: post)) = r0 ++ RCode (if r1 =? GOTCHA_SUCCESS then r2 else r1) :: r3 /\
    snd (arun a (pre ++ OWrap l1 t :: OWrap l2 t :: post)) = r0 ++ RCode r1 :: RCode r2 :: r3 /\
    sim (fst (arun a (pre ++ OWrap (l1 ++ l2) t :: post))) (fst (arun a (pre ++ OWrap l1 t :: OWrap l2 t :: post))).
Proof.
  set (b := fst (arun a pre)). destruct (wrap_split b l1 l2 t) as (S & F). destruct (run_sim post _ _ S) as [S' R'].
  exists (snd (arun a pre)), (code (snd (awrap b l1 t))), (code (snd (awrap (fst (awrap b l1 t)) l2 t))), (snd (arun (fst (awrap b (l1 ++ l2) t)) post)).
  split; [apply arun_length|].
  rewrite !arun_app. fold b. fields. rewrite !arun_cons, !step_wrap. fields. rewrite F, R'.
  split; [|auto]. do 3 f_equal. destruct (snd (awrap b l1 t)), (snd (awrap (fst (awrap b l1 t)) l2 t)); reflexivity.
Qed.
Lemma regrouped_sim ops ops' : regrouped ops ops' -> forall a, sim (fst (arun a ops)) (fst (arun a ops')).
Proof.
  induction 1 as [ops|ops ops' _ IH|o1 o2 o3 _ IH1 _ IH2|pre l1 l2 t post|pre l1 t1 l2 t2 post D]; intros a.
  - apply sim_refl.
  - apply sim_sym, IH.
  - eapply sim_trans; [apply IH1|apply IH2].
  - destruct (split_run pre l1 l2 t post a) as (r0 & r1 & r2 & r3 & _ & _ & _ & S). exact S.
  - destruct (swap_run pre l1 t1 l2 t2 post a D) as (r0 & r1 & r2 & r3 & _ & _ & _ & S). exact S.
Qed.
End Commute.

(** what the loader and the filter do is the same *)
Lemma regrouped_frame ops ops' : regrouped ops ops' -> last_filter ops = last_filter ops' /\ (forall maps, maps_after maps ops = maps_after maps ops') /\
  (forall o, op_libs o <> [] -> In o ops <-> In o ops').
Proof.
  induction 1 as [ops|ops ops' _ (A & B & C)|o1 o2 o3 _ (A1 & B1 & C1) _ (A2 & B2 & C2)|pre l1 l2 t post|pre l1 t1 l2 t2 post D].
  - split; [|split]; [reflexivity|reflexivity|intros; reflexivity].
  - split; [|split]; [auto|auto|]. intros o H. symmetry. auto.
  - split; [|split]; [congruence|congruence|]. intros o H. rewrite C1, C2 by auto. reflexivity.
  - unfold last_filter. rewrite !fold_left_app. split; [reflexivity|]. split; [intros; rewrite !maps_after_app; reflexivity|].
    intros o H. rewrite !in_app_iff. cbn [In]. split; intros [Q|Q]; intuition (subst; try (destruct H; reflexivity); auto).
  - unfold last_filter. rewrite !fold_left_app. split; [reflexivity|]. split; [intros; rewrite !maps_after_app; reflexivity|].
    intros o H. rewrite !in_app_iff. cbn [In]. split; intros [Q|Q]; intuition (subst; try (destruct H; reflexivity); auto).
Qed.
Lemma regrouped_binds ops ops' : regrouped ops ops' -> Permutation (user_binds ops) (user_binds ops').
Proof.
  unfold user_binds. induction 1 as [ops|ops ops' _ IH|o1 o2 o3 _ IH1 _ IH2|pre l1 l2 t post|pre l1 t1 l2 t2 post D].
  - apply Permutation_refl.
  - apply Permutation_sym, IH.
  - eapply Permutation_trans; eassumption.
  - rewrite !flat_map_app. cbn [flat_map op_binds]. rewrite <- !app_assoc. apply Permutation_refl.
  - rewrite !flat_map_app. cbn [flat_map op_binds]. apply Permutation_app_head. rewrite !app_assoc. apply Permutation_app_tail, Permutation_app_comm.
Qed.
Lemma regrouped_fresh e ops ops' : regrouped ops ops' -> fresh e ops -> fresh e ops'.
Proof.
  intros R [A B C]. pose proof (regrouped_binds _ _ R) as P. constructor.
  - eapply Permutation_NoDup; [apply Permutation_map, P|exact A].
  - eapply Permutation_NoDup; [apply (Permutation_map (fun u => (ub_name u, ub_wrapper u))), P|exact B].
  - intros u Hu. apply C. eapply Permutation_in; [apply Permutation_sym, P|exact Hu].
Qed.
Lemma regrouped_process e maps ops ops' : regrouped ops ops' -> process_ok e maps ops -> process_ok e maps ops'.
Proof.
  intros R [A B C]. constructor; auto. intros o m Ho Hm. destruct (regrouped_frame _ _ R) as (_ & _ & F). apply (C o m); [|exact Hm]. apply F; [|exact Ho]. intros Q. rewrite Q in Hm. exact Hm.
Qed.
