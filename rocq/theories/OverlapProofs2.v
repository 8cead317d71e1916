(** Interleaved calls of gotcha_wrap: what they amount to, and which of them update the call sites. *)
From Verif Require Import Base ListFacts HashModel HashProofs SpecHash HashTrace ElfModel SpecElf ToolModel CoreModel SpecCore SpecRun SpecSync SpecGroup
  ToolProofs CoreMaps CoreRel CoreLib CoreStep CoreWrap CoreLoop CoreMain CoreEnv CoreSpec CoreFacts CoreHist CoreApi CoreSync CoreSync2 CoreSync3 CoreApi3 CoreMicro CoreProt CoreTogether CoreIdle CommuteProofs OverlapModel SpecOverlap OverlapProofs.
From Coq Require Import Permutation.

(** *** steps of one thread without interruption *)
Lemma nth_upd_same {A} (cs : list A) i c c' : nth_error cs i = Some c -> nth_error (upd cs i (fun _ => c')) i = Some c'.
Proof. intros H. rewrite nth_upd, Nat.eqb_refl, H. reflexivity. Qed.
Lemma upd_upd {A} (cs : list A) i c c' : upd (upd cs i (fun _ => c)) i (fun _ => c') = upd cs i (fun _ => c').
Proof. revert i. induction cs as [|d r IH]; intros [|i]; cbn; auto. f_equal. apply IH. Qed.
Lemma loop_undisturbed e i ubs tool na : forall n b st pr cs, nth_error cs i = Some (mkWC ubs tool (AtLoop na n b pr)) -> orun e st cs (repeat i n) =
  (do ' (st', pr') <- wrap_loop e (wrap_n e 2) na n b (st, pr); Ok (st', upd cs i (fun _ => mkWC ubs tool (AtLoop na 0 (n + b) pr')))).
Proof.
  induction n as [|n IH]; intros b st pr cs H; [cbn; rewrite (upd_self _ _ _ H); reflexivity|]. cbn [repeat orun wrap_loop]. rewrite H.
  unfold call_step at 1. cbn [wc_at wc_binds wc_tool].
  destruct (wrap_one e (wrap_n e 2) na b (st, pr)) as [[st1 pr1]|f]; cbn [bind]; [|reflexivity].
  rewrite (IH (S b) st1 pr1) by (eapply nth_upd_same; eauto). destruct (wrap_loop e (wrap_n e 2) na n (S b) (st1, pr1)) as [[st2 pr2]|f]; cbn [bind]; [|reflexivity].
  rewrite upd_upd, Nat.add_succ_r. reflexivity.
Qed.
Lemma undisturbed e st cs i ubs tool : nth_error cs i = Some (mkWC ubs tool AtEnter) -> orun e st cs (repeat i (length ubs + 2)) =
  (do ' (st', c) <- gotcha_wrap e st ubs tool; Ok (st', upd cs i (fun _ => mkWC ubs tool (Returned c)))).
Proof.
  intros H. replace (length ubs + 2)%nat with (S (length ubs + 1)) by lia. cbn [repeat]. rewrite repeat_app. cbn [orun]. rewrite H.
  unfold call_step at 1. cbn [wc_at wc_binds wc_tool]. unfold gotcha_wrap. change (wrap_n e 3) with (wrap_body e (wrap_n e 2)). unfold wrap_enter, wrap_body, wrap_tool.
  destruct (gotcha_init e (wrap_n e 2) st) as [st1|f]; cbn [bind]; [|reflexivity]. cbv zeta.
  match goal with |- context[get_or_create_tool ?a ?b ?c] => destruct (get_or_create_tool a b c) as [[ts ti]|f] end; cbn [bind]; [|reflexivity].
  match goal with |- context[add_binding_to_tool ?a ?b ?c ?d] => destruct (add_binding_to_tool a b c d) as [[bs tb]|f] end; cbn [bind]; [|reflexivity].
  destruct (deref (b_tables bs) tb) as [bt|f]; cbn [bind]; [|reflexivity]. rewrite orun_app. erewrite loop_undisturbed by (eapply nth_upd_same; eauto).
  match goal with |- context[wrap_loop ?a ?b ?c ?d ?f ?g] => destruct (wrap_loop a b c d f g) as [[st2 pr2]|] end; cbn [bind]; [|reflexivity].
  cbn [repeat orun]. rewrite upd_upd. erewrite nth_upd_same by exact H. unfold call_step. cbn [wc_at wc_binds wc_tool]. unfold wrap_leave.
  destruct (pr_new pr2) as [t|]; [|cbn [bind]; rewrite upd_upd; reflexivity]. destruct (update_all_library_gots e t st2) as [st3|]; cbn [bind]; [rewrite upd_upd|]; reflexivity.
Qed.

(** *** tools stay *)
Section Kept.
Context (e : env) (ex : lmap -> cstr -> option Z).
Notation has a x := (aget cstr_eqb (a_tools a) x <> None).
Lemma has_use a t x : has a x -> has (ause a t) x.
Proof. intros H. cbn. rewrite aget_use. destruct (aget cstr_eqb (a_tools a) x); [discriminate|congruence]. Qed.
Lemma has_same a t : has (ause a t) t.
Proof. cbn. rewrite aget_use, cstr_eqb_refl. destruct (aget cstr_eqb (a_tools a) t); discriminate. Qed.
Lemma has_binds t ubs x : forall a, has a x -> has (fst (abinds ins_c ex a t ubs)) x.
Proof.
  induction ubs as [|u r IH]; intros a H; cbn [abinds]; [exact H|]. pose proof (abind_tools ex a t u) as E. destruct (abind ins_c ex a t u) as [a1 f1]. cbn [fst] in *.
  specialize (IH a1). rewrite E in IH. specialize (IH H). destruct (abinds ins_c ex a1 t r). exact IH.
Qed.
Lemma has_main n x a : has a x -> has (amain ins_c ex e a n) x.
Proof. intros H. unfold amain. destruct (cstr_eqb n n_main && negb (a_main a)); [|exact H]. apply has_binds, has_use, has_binds, has_use. exact H. Qed.
Lemma has_user t ubs x : forall a, has a x -> has (fst (abinds_user ins_c ex e a t ubs)) x.
Proof.
  induction ubs as [|u r IH]; intros a H; cbn [abinds_user]; [exact H|]. pose proof (abind_tools ex (amain ins_c ex e a (ub_name u)) t u) as E.
  destruct (abind ins_c ex (amain ins_c ex e a (ub_name u)) t u) as [a1 f1]. cbn [fst] in *. specialize (IH a1). rewrite E in IH. specialize (IH (has_main _ _ _ H)). destruct (abinds_user ins_c ex e a1 t r). exact IH.
Qed.
Lemma has_run t : forall ops a, (forall o, In o ops -> exists l t, o = OWrap l t) -> (has a (tool_of t) \/ exists l, In (OWrap l t) ops) -> has (fst (arun ins_c ex e a ops)) (tool_of t).
Proof.
  induction ops as [|o r IH]; intros a W H; [destruct H as [H|[l []]]; exact H|]. rewrite arun_cons. cbn [fst]. apply IH; [intros; apply W; right; auto|].
  destruct (W o (or_introl eq_refl)) as (l & t' & ->). rewrite step_wrap. cbn [fst]. unfold awrap. fold (tool_of t').
  assert (HI : has a (tool_of t) -> has (ainit ins_c ex e a) (tool_of t)).
  { intros K. unfold ainit. destruct (a_init a); [exact K|]. apply has_binds, has_use. exact K. }
  destruct H as [H|[l' [H|H]]]; [left; apply has_user, has_use, HI, H| |right; eauto]. injection H as -> ->. left. apply has_user, has_same.
Qed.
End Kept.

(** *** from a history *)
Lemma srel_true e ex rl (F : Prop) st a ch todo : F -> srel e ex rl F st a ch todo -> srel e ex rl True st a ch todo.
Proof. intros f S. constructor; try apply S; intros _; [apply S; exact f|]. intros. eapply (sr_int _ _ _ _ _ _ _ _ S); eauto. Qed.
Lemma srel_false e ex rl (F : Prop) st a ch todo : srel e ex rl F st a ch todo -> srel e ex rl False st a ch todo.
Proof. intros S. constructor; try apply S; intros []. Qed.

Lemma call_binds calls : user_binds (call_ops calls) = flat_map fst calls.
Proof. induction calls as [|c r IH]; [reflexivity|]. unfold user_binds, call_ops in *. cbn. rewrite IH. reflexivity. Qed.
Lemma about_rem calls : flat_map rem_of (about calls) = flat_map fst calls.
Proof. induction calls as [|c r IH]; [reflexivity|]. cbn. unfold about in IH. rewrite IH. reflexivity. Qed.
Lemma about_pend calls : flat_map pend_of (about calls) = [].
Proof. induction calls as [|c r IH]; [reflexivity|]. cbn. exact IH. Qed.
Lemma about_nth calls i c : nth_error (about calls) i = Some c -> wc_at c = AtEnter /\ nth_error calls i = Some (wc_binds c, wc_tool c).
Proof. unfold about. rewrite nth_error_map. destruct (nth_error calls i) as [[l t]|]; [|discriminate]. intros H. injection H as <-. auto. Qed.
Lemma nodup_perm {A B} (f : A -> B) l l' : Permutation l l' -> NoDup (map f l) -> NoDup (map f l').
Proof. intros P. apply Permutation_NoDup, Permutation_map, P. Qed.

Section Hist.
Context (e : env) (maps : list lmap) (mem : Z -> Z) (ops : list op) (st : state) (rs : list res) (calls : list (list ubind * option cstr)).
Context (P : process_ok e maps ops) (I : existsb is_api ops = true) (E : run e (init_state maps mem) ops = Ok (st, rs)).
Notation ex := (exports e).
Notation arun := (arun ins_c ex e).
Notation A0 := (fst (arun (a0 maps) ops)).
Let F := fresh e (ops ++ call_ops calls).

Lemma hist_ex_srel : exists ch, srel e ex relocs F st A0 ch [].
Proof.
  pose proof (po_env _ _ _ P) as EO.
  destruct (run_spec e ex relocs EO F ops (init_state maps mem) (a0 maps)) as (st1 & E1 & R).
  { apply init_rel. eapply process_libs; eauto. }
  { intros f. apply fresh_app in f. destruct (arun_agree e EO ex ops (a0 maps)) as (_ & B & _); [apply a0_inv|apply (fresh_ops_of e ex maps ops [] f)|exact B]. }
  { eapply process_ops; eauto. }
  rewrite E in E1. injection E1 as <- _. destruct R as [R|R]; [|exact R]. exfalso.
  pose proof (reached_init e maps mem ops st rs P E) as H. rewrite I in H. rewrite (pr_i _ _ _ _ _ R) in H. discriminate.
Qed.

Lemma fresh_use : F -> forall (ws : list (nat * op)) l, Permutation (user_binds (map snd ws) ++ l) (flat_map fst calls) ->
  NoDup (map ub_handle l) /\ NoDup (map (fun u => (ub_name u, ub_wrapper u)) l) /\
  (forall u, In u l -> ~ In (ub_handle u) (internal_handles e) /\ ~ In (ub_wrapper u) (internal_wrappers e)) /\
  forall u n x, In u l -> In x (a_stack (fst (arun A0 (map snd ws))) n) -> en_handle x <> ub_handle u /\ (n = ub_name u -> en_wrapper x <> ub_wrapper u).
Proof.
  intros [H1 H2 H3] ws l PB. rewrite user_binds_app, call_binds in H1, H2, H3.
  assert (Q : Permutation (user_binds ops ++ flat_map fst calls) (user_binds (ops ++ map snd ws) ++ l)).
  { rewrite user_binds_app, <- app_assoc. apply Permutation_app_head, Permutation_sym, PB. }
  apply (nodup_perm _ _ _ Q) in H1. apply (nodup_perm _ _ _ Q) in H2.
  assert (H4 : forall u, In u l -> ~ In (ub_handle u) (internal_handles e) /\ ~ In (ub_wrapper u) (internal_wrappers e)).
  { intros u Hu. apply H3. eapply Permutation_in; [apply Permutation_sym, Q|]. apply in_or_app. auto. }
  split; [rewrite map_app in H1; apply NoDup_app_remove_l in H1; exact H1|]. split; [rewrite map_app in H2; apply NoDup_app_remove_l in H2; exact H2|]. split; [exact H4|].
  intros u n x Hu Hx. assert (Hs : In x (a_stack (fst (arun (a0 maps) (ops ++ map snd ws))) n)) by (rewrite arun_app; exact Hx).
  apply (stack_from e ex ins_c maps _ n x ins_c_in) in Hs. unfold installed in Hs. apply in_sel in Hs. apply installs_user in Hs.
  destruct Hs as [(v & V1 & V2 & V3 & V4)|[V1 V2]].
  - split.
    + intros Eh. apply (NoDup_map_inj ub_handle _ _ _ _ H1 V1 Hu). congruence.
    + intros En Ew. apply (NoDup_map_inj (fun u => (ub_name u, ub_wrapper u)) _ _ _ _ H2 V1 Hu). cbn. congruence.
  - destruct (H4 u Hu) as [X Y]. split; [intros Eh; apply X; congruence|intros _ Ew; apply Y; congruence].
Qed.

Lemma start_inv ch : srel e ex relocs F st A0 ch [] -> oinv e A0 F calls (s_p st) st (about calls) A0 ch [] [].
Proof.
  intros S. constructor.
  - rewrite about_pend. exact S.
  - apply sim_refl.
  - apply map_length.
  - intros i c H. apply about_nth in H. destruct H as [H1 H2]. split; [exact H2|]. unfold cinv. rewrite H1. auto.
  - intros t [].
  - intros p [].
  - cbn. rewrite about_rem. auto.
  - apply memf_refl.
Qed.

Lemma overlapped sched : exists st' cs', orun e st (about calls) sched = Ok (st', cs') /\
  ((forall c, In c cs' -> exists code, wc_at c = Returned code) -> exists ws a ch, merges calls ws /\ length cs' = length calls /\
    srel e ex relocs F st' a ch [] /\ sim a (fst (arun A0 (map snd ws))) /\ memf relocs a (s_p st) (s_p st') /\
    (forall p, In p ws -> exists l t, snd p = OWrap l t) /\
    Permutation (user_binds (map snd ws)) (flat_map fst calls) /\
    forall i c, nth_error cs' i = Some c ->
      wc_at c = Returned (if existsb failed (results_of i ws (snd (arun A0 (map snd ws)))) then GOTCHA_FUNCTION_NOT_FOUND else GOTCHA_SUCCESS)).
Proof.
  destruct hist_ex_srel as [ch S]. pose proof (po_env _ _ _ P) as EO. pose proof (sr_ainit _ _ _ _ _ _ _ _ S) as I0.
  pose proof (start_inv ch S) as V0.
  destruct (overlap_run e EO A0 I0 F calls (s_p st) fresh_use sched st (about calls) A0 ch [] [] V0) as (st' & cs' & a & ch' & pend & ws & R & V).
  exists st', cs'. split; [exact R|]. intros Hret. exists ws, a, ch'. assert (WW : forall p, In p ws -> exists l t, snd p = OWrap l t) by (eapply (ws_wrap e A0 I0 F calls (s_p st)); exact V). destruct V as [VS VM VL VC VP VA VB VX].
  assert (Ret : forall i c, nth_error cs' i = Some c -> exists code, wc_at c = Returned code) by (intros i c H; apply Hret; eapply nth_error_In; eauto).
  assert (E1 : forall f : wcall -> list nat, (forall c code, wc_at c = Returned code -> f c = []) -> flat_map f cs' = []).
  { intros f Hf. assert (G : forall c, In c cs' -> f c = []) by (intros c Hc; destruct (Hret c Hc) as [code Ec]; eauto). clear -G.
    induction cs' as [|c r IH]; [reflexivity|]. cbn. rewrite (G c) by (left; auto). apply IH. intros; apply G; right; auto. }
  assert (E2 : flat_map rem_of cs' = []).
  { assert (G : forall c, In c cs' -> rem_of c = []) by (intros c Hc; destruct (Hret c Hc) as [code Ec]; unfold rem_of; rewrite Ec; reflexivity). clear -G.
    induction cs' as [|c r IH]; [reflexivity|]. cbn. rewrite (G c) by (left; auto). apply IH. intros; apply G; right; auto. }
  assert (E3 : flat_map pend_of cs' = []) by (apply E1; intros c code Ec; unfold pend_of; rewrite Ec; reflexivity).
  split; [|split; [exact VL|split; [rewrite E3 in VS; exact VS|split; [|split; [exact VX|split; [exact WW|split]]]]]].
  - constructor; [|exact VA]. intros i c Hc. destruct (nth_error cs' i) as [d|] eqn:Ed.
    2:{ apply nth_error_None in Ed. rewrite VL in Ed. apply nth_error_None in Ed. congruence. }
    destruct (VC i d Ed) as [X Y]. unfold cinv in Y. destruct (Ret i d Ed) as [code Ec]. rewrite Ec in Y. assert (c = (wc_binds d, wc_tool d)) by congruence. subst c. apply Y.
  - eapply sim_trans; [exact VM|]. apply (uall_sim pend [] _ _ eq_refl eq_refl eq_refl eq_refl eq_refl). intros x. rewrite !uall_tools. cbn [existsb].
    destruct (aget cstr_eqb (a_tools (fst (arun A0 (map snd ws)))) x) eqn:Ex; [reflexivity|]. destruct (existsb (fun t => cstr_eqb t x) pend) eqn:Ep; [|reflexivity]. exfalso.
    apply existsb_exists in Ep. destruct Ep as (t & Ht & Et). destruct (cstr_dec t x) as [->|D]; [|rewrite (cstr_eqb_neq _ _ D) in Et; discriminate].
    destruct (VP x Ht) as (i & c & Hc & Hx). destruct (VC i c Hc) as [_ Y]. unfold cinv in Y. destruct (Ret i c Hc) as [code Ec]. rewrite Ec in Y. destruct Y as [Y _].
    apply (has_run e ex (wc_tool c) (map snd ws) A0); [|right|rewrite Hx; exact Ex].
    { intros o Ho. apply in_map_iff in Ho. destruct Ho as (p & <- & Hp). auto. }
    assert (Hp : exists l, In (OWrap l (wc_tool c)) (parts (wc_binds c, wc_tool c))).
    { unfold parts. cbn [fst snd]. destruct (wc_binds c) as [|u r]; [exists []; left; reflexivity|]. exists [u]. left. reflexivity. }
    destruct Hp as [l Hl]. exists l. rewrite <- Y in Hl. unfold of_call in Hl. apply in_map_iff in Hl. destruct Hl as (p & Ep & Hp). apply filter_In in Hp.
    apply in_map_iff. exists p. split; [exact Ep|apply Hp].
  - rewrite E2, app_nil_r in VB. exact VB.
  - intros i c Hc. destruct (VC i c Hc) as [_ Y]. unfold cinv in Y. destruct (Ret i c Hc) as [code Ec]. rewrite Ec in Y |- *. destruct Y as [_ ->]. reflexivity.
Qed.
End Hist.
