(** Interleaved calls of gotcha_wrap. *)
From Verif Require Import Base ListFacts HashModel HashProofs SpecHash HashTrace ElfModel SpecElf ToolModel CoreModel SpecCore SpecRun SpecSync SpecGroup
  ToolProofs CoreMaps CoreRel CoreLib CoreStep CoreWrap CoreLoop CoreMain CoreEnv CoreSpec CoreFacts CoreHist CommuteProofs OverlapModel SpecOverlap.
From Coq Require Import Permutation.

(** *** one thread alone *)
Lemma loop_alone e ubs tool na : forall n b st pr, orun e st [mkWC ubs tool (AtLoop na n b pr)] (repeat 0%nat n) =
  (do ' (st', pr') <- wrap_loop e (wrap_n e 2) na n b (st, pr); Ok (st', [mkWC ubs tool (AtLoop na 0 (n + b) pr')])).
Proof.
  induction n as [|n IH]; intros b st pr; [reflexivity|]. cbn [repeat orun nth_error wrap_loop call_step wc_at].
  unfold call_step at 1. cbn [wc_at wc_binds wc_tool].
  destruct (wrap_one e (wrap_n e 2) na b (st, pr)) as [[st1 pr1]|f]; cbn [bind]; [|reflexivity].
  cbn [upd]. rewrite IH. destruct (wrap_loop e (wrap_n e 2) na n (S b) (st1, pr1)) as [[st2 pr2]|f]; cbn [bind]; [|reflexivity].
  rewrite Nat.add_succ_r. reflexivity.
Qed.
Lemma orun_app e : forall s1 s2 st cs, orun e st cs (s1 ++ s2) = (do ' (st', cs') <- orun e st cs s1; orun e st' cs' s2).
Proof.
  induction s1 as [|i r IH]; intros s2 st cs; [reflexivity|]. cbn [app orun]. destruct (nth_error cs i) as [c|]; [|apply IH].
  destruct (call_step e st c) as [[st1 c1]|f]; cbn [bind]; [apply IH|reflexivity].
Qed.
Lemma alone e st ubs tool : orun e st (about [(ubs, tool)]) (repeat 0%nat (length ubs + 2)) =
  (do ' (st', c) <- gotcha_wrap e st ubs tool; Ok (st', [mkWC ubs tool (Returned c)])).
Proof.
  replace (length ubs + 2)%nat with (S (length ubs + 1)) by lia. cbn [repeat]. rewrite repeat_app.
  cbn [about map fst snd orun nth_error]. unfold call_step at 1. cbn [wc_at wc_binds wc_tool]. unfold gotcha_wrap. change (wrap_n e 3) with (wrap_body e (wrap_n e 2)). unfold wrap_enter, wrap_body, wrap_tool.
  destruct (gotcha_init e (wrap_n e 2) st) as [st1|f]; cbn [bind]; [|reflexivity]. cbv zeta.
  match goal with |- context[get_or_create_tool ?a ?b ?c] => destruct (get_or_create_tool a b c) as [[ts ti]|f] end; cbn [bind]; [|reflexivity].
  match goal with |- context[add_binding_to_tool ?a ?b ?c ?d] => destruct (add_binding_to_tool a b c d) as [[bs tb]|f] end; cbn [bind]; [|reflexivity].
  destruct (deref (b_tables bs) tb) as [bt|f]; cbn [bind]; [|reflexivity]. cbn [upd]. rewrite orun_app, loop_alone.
  match goal with |- context[wrap_loop ?a ?b ?c ?d ?f ?g] => destruct (wrap_loop a b c d f g) as [[st2 pr2]|] end; cbn [bind]; [|reflexivity].
  cbn [repeat orun nth_error]. unfold call_step. cbn [wc_at wc_binds wc_tool]. unfold wrap_leave.
  destruct (pr_new pr2) as [t|]; [|reflexivity]. destruct (update_all_library_gots e t st2) as [st3|]; reflexivity.
Qed.

(** *** pending bindings in any order *)
Lemma brel_perm bs tools stack ch todo todo' : Permutation todo todo' -> brel bs tools stack ch todo -> brel bs tools stack ch todo'.
Proof.
  intros P [A B C D E F G H I J K]. constructor; auto.
  - intros i Hi. apply H. eapply Permutation_in; [apply Permutation_sym; exact P|exact Hi].
  - eapply Permutation_NoDup; eauto.
Qed.
Lemma wrel_perm bs o ch todo todo' : Permutation todo todo' -> wrel bs o ch todo -> wrel bs o ch todo'.
Proof.
  intros P [A B C D]. constructor; auto.
  - intros i Hi. apply C. eapply Permutation_in; [apply Permutation_sym; exact P|exact Hi].
  - intros i Hi. destruct (D i Hi) as [H|H]; [left; eapply Permutation_in; eauto|auto].
Qed.
Lemma srel_perm e ex rl F st a ch todo todo' : Permutation todo todo' -> srel e ex rl F st a ch todo -> srel e ex rl F st a ch todo'.
Proof.
  intros P S. constructor; try apply S; try (intros; eapply (sr_int _ _ _ _ _ _ _ _ S); eauto).
  - eapply brel_perm; [exact P|apply S].
  - intros f. eapply wrel_perm; [exact P|apply S; exact f].
Qed.

(** *** lists *)
Lemma flat_upd {A B} (f : A -> list B) cs i c : nth_error cs i = Some c ->
  exists rest, Permutation (flat_map f cs) (f c ++ rest) /\ (forall c', Permutation (flat_map f (upd cs i (fun _ => c'))) (f c' ++ rest)) /\
    forall j d x, nth_error cs j = Some d -> j <> i -> In x (f d) -> In x rest.
Proof.
  revert i. induction cs as [|d r IH]; intros [|i] H; try discriminate; cbn [nth_error upd flat_map] in *.
  - injection H as <-. exists (flat_map f r). split; [auto|]. split; [auto|]. intros [|j] y x Hy Hj Hx; [congruence|]. cbn in Hy.
    apply in_flat_map. exists y. split; [eapply nth_error_In; eauto|exact Hx].
  - destruct (IH i H) as (rest & P & Q & R). exists (f d ++ rest). split; [|split].
    + eapply perm_trans; [apply Permutation_app_head, P|]. rewrite !app_assoc. apply Permutation_app_tail, Permutation_app_comm.
    + intros c'. eapply perm_trans; [apply Permutation_app_head, Q|]. rewrite !app_assoc. apply Permutation_app_tail, Permutation_app_comm.
    + intros [|j] y x Hy Hj Hx; apply in_or_app; cbn in Hy; [injection Hy as ->; auto|]. right. eapply R; eauto.
Qed.
Lemma nth_upd {A} (cs : list A) i j c : nth_error (upd cs i (fun _ => c)) j = if Nat.eqb j i then option_map (fun _ => c) (nth_error cs i) else nth_error cs j.
Proof.
  revert i j. induction cs as [|d r IH]; intros [|i] [|j]; cbn [upd nth_error Nat.eqb option_map]; auto. destruct (Nat.eqb j i); reflexivity.
Qed.
Lemma of_call_snoc {A} i ws j (x : A) : of_call i (ws ++ [(j, x)]) = of_call i ws ++ (if Nat.eqb j i then [x] else []).
Proof.
  unfold of_call. rewrite filter_app, map_app. cbn [filter fst]. destruct (Nat.eqb j i); reflexivity.
Qed.
Lemma results_snoc i ws xs j o x : length xs = length ws -> results_of i (ws ++ [(j, o)]) (xs ++ [x]) = results_of i ws xs ++ (if Nat.eqb j i then [x] else []).
Proof.
  intros L. unfold results_of. rewrite map_app. cbn [map fst].
  assert (E : combine (map fst ws ++ [j]) (xs ++ [x]) = combine (map fst ws) xs ++ [(j, x)]).
  { revert xs L. induction ws as [|w r IH]; intros [|y xs] L; try discriminate; cbn [map app combine]; [reflexivity|]. rewrite IH by (cbn in L; lia). reflexivity. }
  rewrite E. apply of_call_snoc.
Qed.

(** *** tools that have been used *)
Fixpoint Uall (pend : list cstr) (a : astate) : astate := match pend with [] => a | t :: r => Us t (Uall r a) end.
Lemma uall_tools pend a x : aget cstr_eqb (a_tools (Uall pend a)) x =
  match aget cstr_eqb (a_tools a) x with Some v => Some v | None => if existsb (fun t => cstr_eqb t x) pend then Some (-1) else None end.
Proof.
  induction pend as [|t r IH]; cbn [Uall existsb]; [destruct (aget cstr_eqb (a_tools a) x); reflexivity|]. unfold Us. cbn [ause a_tools]. rewrite aget_use, IH.
  destruct (aget cstr_eqb (a_tools a) x); [reflexivity|]. destruct (existsb (fun t => cstr_eqb t x) r), (cstr_eqb t x); reflexivity.
Qed.
Lemma uall_rest pend a : a_init (Uall pend a) = a_init a /\ a_main (Uall pend a) = a_main a /\ a_stack (Uall pend a) = a_stack a /\
  a_orig (Uall pend a) = a_orig a /\ a_maps (Uall pend a) = a_maps a.
Proof. induction pend as [|t r IH]; cbn [Uall]; [auto|]. exact IH. Qed.
Lemma uall_sim pend pend' a a' : a_init a = a_init a' -> a_main a = a_main a' -> a_stack a = a_stack a' -> a_orig a = a_orig a' -> a_maps a = a_maps a' ->
  (forall x, aget cstr_eqb (a_tools (Uall pend a)) x = aget cstr_eqb (a_tools (Uall pend' a')) x) -> sim (Uall pend a) (Uall pend' a').
Proof.
  intros A B C D E T. destruct (uall_rest pend a) as (A1 & B1 & C1 & D1 & E1), (uall_rest pend' a') as (A2 & B2 & C2 & D2 & E2).
  constructor; auto; intros; congruence.
Qed.
Lemma uall_again pend t a : In t pend -> sim (Uall pend (Us t a)) (Uall pend a).
Proof.
  intros H. apply uall_sim; auto. intros x. rewrite !uall_tools. unfold Us. cbn [ause a_tools]. rewrite aget_use.
  destruct (aget cstr_eqb (a_tools a) x); [reflexivity|]. destruct (cstr_eqb t x) eqn:E; [|reflexivity].
  replace (existsb (fun t => cstr_eqb t x) pend) with true; [reflexivity|]. symmetry. apply existsb_exists. eauto.
Qed.
Lemma uall_proper pend a b : sim a b -> sim (Uall pend a) (Uall pend b).
Proof. intros H. induction pend as [|t r IH]; cbn [Uall]; [exact H|]. apply Us_proper, IH. Qed.

Definition pend_of (c : wcall) : list nat := match wc_at c with AtLoop _ n b _ => seq b n | _ => [] end.
Definition rem_of (c : wcall) : list ubind :=
  match wc_at c with AtEnter => wc_binds c | AtLoop _ n _ _ => skipn (length (wc_binds c) - n) (wc_binds c) | Returned _ => [] end.
Definition done_parts (c : wcall) (n : nat) : list op :=
  match wc_binds c with [] => [OWrap [] (wc_tool c)] | l => map (fun u => OWrap [u] (wc_tool c)) (firstn (length l - n) l) end.

Lemma skipn_at {A} (l : list A) n : (S n <= length l)%nat -> exists u, skipn (length l - S n) l = u :: skipn (length l - n) l /\
  firstn (length l - n) l = firstn (length l - S n) l ++ [u].
Proof.
  intros H. remember (length l - S n)%nat as k eqn:K. replace (length l - n)%nat with (S k) by lia. assert (L : (k < length l)%nat) by lia. clear K H.
  revert k L. induction l as [|x r IH]; intros k L; cbn in L; [lia|]. destruct k as [|k]; [exists x; auto|].
  destruct (IH k ltac:(lia)) as (u & X & Y). exists u. cbn [skipn firstn app] in *. split; [exact X|]. f_equal. exact Y.
Qed.

Lemma upd_self {A} (l : list A) i x : nth_error l i = Some x -> upd l i (fun _ => x) = l.
Proof. revert i. induction l as [|y r IH]; intros [|i] H; try discriminate; cbn in *; [injection H as ->; reflexivity|]. f_equal. auto. Qed.

Section Overlap.
Context (e : env) (EO : env_ok e) (A0 : astate) (I0 : a_init A0 = true) (F : Prop) (calls : list (list ubind * option cstr)) (p0 : pstate).
Notation ex := (exports e).
Notation srel := (srel e ex relocs).
Notation arun := (arun ins_c ex e).
Notation Ur := (Ur e ex ins_c).
Notation abinds_user := (abinds_user ins_c ex e).
Notation memf := (memf relocs).
(** the handles and wrappers of stacks reached by the calls [ws] differ from those of the bindings [l] *)
Context (HF : F -> forall (ws : list (nat * op)) l, Permutation (user_binds (map snd ws) ++ l) (flat_map fst calls) ->
  NoDup (map ub_handle l) /\ NoDup (map (fun u => (ub_name u, ub_wrapper u)) l) /\
  (forall u, In u l -> ~ In (ub_handle u) (internal_handles e) /\ ~ In (ub_wrapper u) (internal_wrappers e)) /\
  forall u n x, In u l -> In x (a_stack (fst (arun A0 (map snd ws))) n) -> en_handle x <> ub_handle u /\ (n = ub_name u -> en_wrapper x <> ub_wrapper u)).

Definition cinv (st : state) (a : astate) (pend : list cstr) (ws : list (nat * op)) (i : nat) (c : wcall) : Prop :=
  match wc_at c with
  | AtEnter => of_call i ws = [] /\ results_of i ws (snd (arun A0 (map snd ws))) = []
  | AtLoop na n b pr => na = Z.of_nat (length (wc_binds c)) /\ (n <= length (wc_binds c))%nat /\ In (tool_of (wc_tool c)) pend /\ of_call i ws = done_parts c n /\
      (forall k u, nth_error (rem_of c) k = Some u -> entry_of (s_b st) (b + k) = Some (mkE (tool_of (wc_tool c)) (ub_wrapper u) (ub_handle u)) /\
                                                     name_of (s_b st) (b + k) = Some (ub_name u)) /\
      new_ok st a pr /\ 0 <= pr_not_found pr /\ (pr_not_found pr =? 0) = negb (existsb failed (results_of i ws (snd (arun A0 (map snd ws)))))
  | Returned code => of_call i ws = parts (wc_binds c, wc_tool c) /\
      code = if existsb failed (results_of i ws (snd (arun A0 (map snd ws)))) then GOTCHA_FUNCTION_NOT_FOUND else GOTCHA_SUCCESS
  end.

Record oinv (st : state) (cs : list wcall) (a : astate) (ch : cstr -> list nat) (pend : list cstr) (ws : list (nat * op)) : Prop := {
  ov_s : srel F st a ch (flat_map pend_of cs);
  ov_sim : sim a (Uall pend (fst (arun A0 (map snd ws))));
  ov_len : length cs = length calls;
  ov_call : forall i c, nth_error cs i = Some c -> nth_error calls i = Some (wc_binds c, wc_tool c) /\ cinv st a pend ws i c;
  ov_pend : forall t, In t pend -> exists i c, nth_error cs i = Some c /\ tool_of (wc_tool c) = t;
  ov_all : forall p, In p ws -> (fst p < length calls)%nat;
  ov_binds : Permutation (user_binds (map snd ws) ++ flat_map rem_of cs) (flat_map fst calls);
  ov_mem : memf a p0 (s_p st) }.

Lemma run_length (ws : list (nat * op)) : length (snd (arun A0 (map snd ws))) = length ws.
Proof. rewrite arun_length, map_length. reflexivity. Qed.
Lemma run_init (ws : list (nat * op)) : (forall p, In p ws -> exists l t, snd p = OWrap l t) -> a_init (fst (arun A0 (map snd ws))) = true.
Proof.
  clear HF. revert I0. generalize A0 as a. induction ws as [|w r IH]; intros a Ha H; cbn [map]; [exact Ha|]. rewrite arun_cons. cbn [fst].
  destruct (H w (or_introl eq_refl)) as (l & t & E). rewrite E, step_wrap. cbn [fst]. rewrite wrap_eq. cbn [fst]. apply IH; [|intros; apply H; right; auto].
  rewrite Ur_init. unfold Us. cbn [ause a_init]. rewrite init_again by exact Ha. exact Ha.
Qed.
Lemma of_call_snd {A} i (ws : list (nat * A)) x : In (i, x) ws -> In x (of_call i ws).
Proof. intros H. unfold of_call. apply in_map_iff. exists (i, x). split; [reflexivity|]. apply filter_In. split; [exact H|apply Nat.eqb_refl]. Qed.

Lemma parts_wrap c o : In o (parts c) -> exists l t, o = OWrap l t.
Proof. unfold parts. destruct (fst c) as [|u r]; [intros [<-|[]]; eauto|]. intros H. apply in_map_iff in H. destruct H as (v & <- & _). eauto. Qed.
Lemma done_parts_wrap c n o : In o (done_parts c n) -> exists l t, o = OWrap l t.
Proof. unfold done_parts. destruct (wc_binds c) as [|u r]; [intros [<-|[]]; eauto|]. intros H. apply in_map_iff in H. destruct H as (v & <- & _). eauto. Qed.
Lemma ws_wrap st cs a ch pend ws : oinv st cs a ch pend ws -> forall p, In p ws -> exists l t, snd p = OWrap l t.
Proof.
  intros V [i o] Hp. cbn [snd]. pose proof (ov_all _ _ _ _ _ _ V _ Hp) as L. cbn [fst] in L. rewrite <- (ov_len _ _ _ _ _ _ V) in L.
  destruct (nth_error cs i) as [c|] eqn:E; [|apply nth_error_None in E; lia]. apply of_call_snd in Hp.
  destruct (ov_call _ _ _ _ _ _ V _ _ E) as [_ C]. unfold cinv in C. destruct (wc_at c).
  - destruct C as [C _]. rewrite C in Hp. destruct Hp.
  - destruct C as (_ & _ & _ & C & _). rewrite C in Hp. eapply done_parts_wrap; eauto.
  - destruct C as [C _]. rewrite C in Hp. eapply parts_wrap; eauto.
Qed.

(** one more call with one binding *)
Lemma snoc_run (ws : list (nat * op)) (i : nat) l t : (forall p, In p ws -> exists l t, snd p = OWrap l t) ->
  let a := Us (tool_of t) (fst (arun A0 (map snd ws))) in
  arun A0 (map snd (ws ++ [(i, OWrap l t)])) = (Ur (tool_of t) l a, snd (arun A0 (map snd ws)) ++ [RCode (if snd (abinds_user a (tool_of t) l) then GOTCHA_FUNCTION_NOT_FOUND else GOTCHA_SUCCESS)]).
Proof.
  intros W a. rewrite map_app. cbn [map snd]. rewrite arun_app. rewrite (arun_cons e ex ins_c _ (OWrap l t) []). cbn [SpecCore.arun fst snd].
  rewrite step_wrap. cbn [fst snd]. rewrite wrap_eq. cbn [fst snd]. rewrite init_again by (apply run_init; exact W). reflexivity.
Qed.

(** the other calls *)
Lemma cinv_other st st' a a' ch todo pend pend' ws ws' i j c : srel F st a ch todo -> bext (s_b st) (s_b st') -> sub_stack a a' ->
  (forall t, In t pend -> In t pend') -> ws' = ws \/ (exists l t, ws' = ws ++ [(i, OWrap l t)] /\ forall p, In p ws -> exists l t, snd p = OWrap l t) -> j <> i ->
  cinv st a pend ws j c -> cinv st' a' pend' ws' j c.
Proof.
  intros S B U P W D C.
  assert (E : of_call j ws' = of_call j ws /\ results_of j ws' (snd (arun A0 (map snd ws'))) = results_of j ws (snd (arun A0 (map snd ws)))).
  { destruct W as [->|(l & t & -> & W)]; [auto|]. rewrite of_call_snoc, (snoc_run ws i l t W). cbn [snd].
    rewrite results_snoc by apply run_length. rewrite (proj2 (Nat.eqb_neq i j)) by auto. rewrite !app_nil_r. auto. }
  destruct E as [E1 E2]. unfold cinv in *. destruct (wc_at c) as [|na n b pr|code].
  - rewrite E1, E2. exact C.
  - destruct C as (C1 & C2 & C3 & C4 & C5 & C6 & C7 & C8). rewrite E1, E2. spl; auto.
    + intros k u Hu. destruct (C5 k u Hu) as [X Y]. apply (B _ _ _ X Y).
    + unfold new_ok in *. destruct (pr_new pr) as [t|]; [|exact Logic.I]. eapply tbl_ok_mono; [exact C6| |].
      * intros k ib Hk. eapply bext_user; [apply (sr_b _ _ _ _ _ _ _ _ S)|exact B|exact Hk].
      * intros m w. apply Gst_sub. exact U.
  - rewrite E1, E2. exact C.
Qed.

Lemma stack_run a pend (ws : list (nat * op)) n : sim a (Uall pend (fst (arun A0 (map snd ws)))) -> a_stack a n = a_stack (fst (arun A0 (map snd ws))) n.
Proof. intros H. rewrite (sm_stack _ _ H). destruct (uall_rest pend (fst (arun A0 (map snd ws)))) as (_ & _ & E & _). rewrite E. reflexivity. Qed.

Lemma upd_call cs i c c' (Q : nat -> wcall -> Prop) : nth_error cs i = Some c -> Q i c' -> (forall j d, nth_error cs j = Some d -> j <> i -> Q j d) ->
  forall j d, nth_error (upd cs i (fun _ => c')) j = Some d -> Q j d.
Proof.
  intros H H1 H2 j d Hd. rewrite nth_upd in Hd. destruct (Nat.eqb_spec j i) as [->|D]; [|eauto]. rewrite H in Hd. cbn in Hd. congruence.
Qed.
Lemma upd_pend cs i c c' (pend : list cstr) : nth_error cs i = Some c -> wc_tool c' = wc_tool c ->
  (forall t, In t pend -> exists i c, nth_error cs i = Some c /\ tool_of (wc_tool c) = t) ->
  forall t, In t pend -> exists j d, nth_error (upd cs i (fun _ => c')) j = Some d /\ tool_of (wc_tool d) = t.
Proof.
  intros H E P t Ht. destruct (P t Ht) as (j & d & A & B). exists j. rewrite nth_upd. destruct (Nat.eqb_spec j i) as [->|D]; [|eauto].
  rewrite H. cbn. exists c'. split; [reflexivity|]. rewrite E. congruence.
Qed.

Lemma step_enter st cs a ch pend ws i c : oinv st cs a ch pend ws -> nth_error cs i = Some c -> wc_at c = AtEnter ->
  exists st' c' a' ch' pend' ws', call_step e st c = Ok (st', c') /\ oinv st' (upd cs i (fun _ => c')) a' ch' pend' ws'.
Proof.
  intros V Hc Hat. pose proof (ws_wrap _ _ _ _ _ _ V) as WW. destruct V as [VS VM VL VC VP VA VB VX].
  set (l := wc_binds c) in *. set (t := tool_of (wc_tool c)).
  destruct (flat_upd rem_of cs i c Hc) as (rest & R1 & R2 & R3). destruct (flat_upd pend_of cs i c Hc) as (todo & T1 & T2 & T3).
  assert (Er : rem_of c = l) by (unfold rem_of; rewrite Hat; reflexivity). assert (Ep : pend_of c = []) by (unfold pend_of; rewrite Hat; reflexivity).
  rewrite Er in R1. rewrite Ep in T1. cbn [app] in T1.
  assert (PB : Permutation (user_binds (map snd ws) ++ (l ++ rest)) (flat_map fst calls)).
  { eapply perm_trans; [apply Permutation_app_head, Permutation_sym, R1|exact VB]. }
  destruct (srel_use_gen e ex relocs (eo_ps _ EO) F st a ch todo t l (srel_perm _ _ _ _ _ _ _ _ _ T1 VS)) as (ts & ti & bs & bt & E1 & E2 & E3 & E4 & S1 & B1 & Hent).
  { intros f. destruct (HF f ws (l ++ rest) PB) as (F1 & F2 & F3 & F4). split; [|split].
    - rewrite map_app in F1. apply NoDup_app_remove_r in F1. exact F1.
    - intros k ib u Hk Hu. destruct (wr_cover _ _ _ _ (sr_w _ _ _ _ _ _ _ _ VS f) k) as [Hk'|[n Hn]]; [eapply nth_error_Some_lt; eauto| |].
      + apply in_flat_map in Hk'. destruct Hk' as (d & Hd & Hk'). apply In_nth_error in Hd. destruct Hd as [j Hd]. destruct (VC j d Hd) as [_ C].
        unfold pend_of in Hk'. unfold cinv in C. destruct (wc_at d) as [|na n b pr|] eqn:Ed; try (destruct Hk'). apply in_seq in Hk'.
        destruct C as (_ & C2 & _ & _ & C5 & _). destruct (nth_error (rem_of d) (k - b)) as [v|] eqn:Ev.
        2:{ apply nth_error_None in Ev. unfold rem_of in Ev. rewrite Ed, skipn_length in Ev. lia. }
        destruct (C5 _ _ Ev) as [X Y]. replace (b + (k - b))%nat with k in X, Y by lia. destruct (entry_ib _ _ _ X) as (ib' & Hib & _ & Hh). cbn in Hh.
        assert (ib' = ib) by congruence. subst ib'. rewrite Hh. intros Heq. apply nth_error_In in Ev.
        assert (Hr : In v rest) by (apply (R3 j d v Hd); [intros ->; congruence|exact Ev]).
        apply (NoDup_map_inj ub_handle l rest u v F1 Hu Hr). congruence.
      + destruct (chain_entry _ _ _ _ _ _ _ _ _ _ _ VS Hn Hk) as (x & Hx & ->). cbn. rewrite (stack_run _ _ _ n VM) in Hx.
        apply (proj1 (F4 u n x (in_or_app l rest u (or_introl Hu)) Hx)).
    - right. intros u Hu. destruct (F3 u (in_or_app l rest u (or_introl Hu))) as [A B]. unfold internal_handles, internal_wrappers in *. cbn in *. tauto. }
  set (st' := set_b bs (set_l (mkLS (l_table (s_l st)) (l_heap (s_l st)) (l_list (s_l st)) (u32 (l_gen (s_l st) + 1))) st)).
  set (c' := mkWC l (wc_tool c) (AtLoop (Z.of_nat (length l)) (length l) (length (b_ib (s_b st))) (mkPr 0 None))).
  set (ws' := match l with [] => ws ++ [(i, OWrap [] (wc_tool c))] | _ => ws end).
  assert (W : ws' = ws \/ (exists l t, ws' = ws ++ [(i, OWrap l t)] /\ forall p, In p ws -> exists l t, snd p = OWrap l t)).
  { unfold ws'. destruct l; [right; eauto|auto]. }
  exists st', c', (ause a t), ch, (t :: pend), ws'. split.
  { unfold call_step. rewrite Hat. unfold wrap_enter, gotcha_init. rewrite (sr_init _ _ _ _ _ _ _ _ VS). cbn [bind]. cbv zeta. fold l. fold (tool_of (wc_tool c)). fold t.
    cbn [s_b set_b b_tools set_handles b_handles]. rewrite E1. cbn [bind s_b set_b set_l s_l s_init s_main s_p]. cbn [set_b s_b s_init s_main s_l s_p set_l] in *. rewrite E2. cbn [bind].
    rewrite (deref_Ok _ _ _ E3). cbn [bind]. rewrite E4. reflexivity. }
  assert (Erc : rem_of c' = l). { unfold rem_of, c'. cbn [wc_at wc_binds]. rewrite Nat.sub_diag. reflexivity. }
  destruct (VC i c Hc) as [Hcall Ci]. unfold cinv in Ci. rewrite Hat in Ci. destruct Ci as [Ci1 Ci2].
  constructor.
  - eapply srel_perm; [apply Permutation_sym, T2|]. exact (S1 _).
  - apply (sim_trans _ (Us t (Uall pend (fst (arun A0 (map snd ws)))))); [apply (Us_proper t), VM|]. change (Us t (Uall pend (fst (arun A0 (map snd ws))))) with (Uall (t :: pend) (fst (arun A0 (map snd ws)))).
    unfold ws'. destruct l; [|apply sim_refl]. rewrite snoc_run by exact WW. cbn [fst]. apply sim_sym. apply (uall_again (t :: pend) t). left; reflexivity.
  - rewrite upd_length. exact VL.
  - eapply upd_call; [exact Hc| |].
    + split; [exact Hcall|]. unfold cinv, c'. cbn [wc_at wc_binds wc_tool]. fold c'. rewrite Erc. split; [reflexivity|]. split; [lia|]. split; [left; reflexivity|].
      split; [|split; [exact Hent|split; [exact Logic.I|split; [cbn; lia|]]]].
      * unfold done_parts, c'. cbn [wc_binds wc_tool]. unfold ws'. destruct l as [|u r] eqn:El; [rewrite of_call_snoc, Nat.eqb_refl, Ci1; reflexivity|]. rewrite Nat.sub_diag. exact Ci1.
      * unfold ws'. destruct l as [|u r] eqn:El; [|rewrite Ci2; reflexivity]. rewrite snoc_run by exact WW. cbn [snd]. rewrite results_snoc by apply run_length. rewrite Nat.eqb_refl, Ci2. reflexivity.
    + intros j d Hd D. destruct (VC j d Hd) as [X Y]. split; [exact X|]. eapply (cinv_other st st' a (ause a t) ch (flat_map pend_of cs) pend (t :: pend) ws ws' i j d); [exact VS|exact B1|intros ? ?; auto|intros; right; auto|exact W|exact D|exact Y].
  - intros t' [<-|Ht]; [exists i, c'; rewrite nth_upd, Nat.eqb_refl, Hc; auto|]. apply (upd_pend cs i c c' pend Hc eq_refl VP t' Ht).
  - intros p Hp. unfold ws' in Hp. destruct l; [|auto]. apply in_app_or in Hp. destruct Hp as [Hp|[<-|[]]]; [auto|]. cbn [fst]. rewrite <- VL. apply nth_error_Some. congruence.
  - eapply perm_trans; [|exact PB]. assert (Eu : user_binds (map snd ws') = user_binds (map snd ws)).
    { unfold ws'. destruct l; [|reflexivity]. rewrite map_app, user_binds_app. cbn. apply app_nil_r. }
    rewrite Eu. apply Permutation_app_head. rewrite <- Erc. apply R2.
  - exact VX.
Qed.

Lemma step_loop st cs a ch pend ws i c na n b pr : oinv st cs a ch pend ws -> nth_error cs i = Some c -> wc_at c = AtLoop na (S n) b pr ->
  exists st' c' a' ch' pend' ws', call_step e st c = Ok (st', c') /\ oinv st' (upd cs i (fun _ => c')) a' ch' pend' ws'.
Proof.
  intros V Hc Hat. pose proof (ws_wrap _ _ _ _ _ _ V) as WW. destruct V as [VS VM VL VC VP VA VB VX].
  destruct (VC i c Hc) as [Hcall Ci]. unfold cinv in Ci. rewrite Hat in Ci. destruct Ci as (C1 & C2 & C3 & C4 & C5 & C6 & C7 & C8).
  set (l := wc_binds c) in *. set (t := tool_of (wc_tool c)) in *.
  destruct (flat_upd rem_of cs i c Hc) as (rest & R1 & R2 & R3). destruct (flat_upd pend_of cs i c Hc) as (todo & T1 & T2 & T3).
  destruct (skipn_at l n C2) as (u & K1 & K2).
  assert (Er : rem_of c = u :: skipn (length l - n) l) by (unfold rem_of; rewrite Hat; exact K1). assert (Ep : pend_of c = b :: seq (S b) n) by (unfold pend_of; rewrite Hat; reflexivity).
  rewrite Er in R1. rewrite Ep in T1.
  assert (PB : Permutation (user_binds (map snd ws) ++ (u :: skipn (length l - n) l ++ rest)) (flat_map fst calls)).
  { eapply perm_trans; [apply Permutation_app_head, Permutation_sym, R1|exact VB]. }
  destruct (wrap_loop_spec e ex relocs (eo_ps _ EO) (wrap_n e 2) F false t na ltac:(subst na; lia) [u] st a ch (seq (S b) n ++ todo) b pr) as (st' & ch' & pr' & EL & S' & P' & Z' & B' & M' & N').
  { eapply srel_perm; [exact T1|exact VS]. }
  { intros [|[|k]] v Hv; try discriminate. injection Hv as <-. apply (C5 0%nat u). rewrite Er. reflexivity. }
  { intros f. destruct (HF f ws _ PB) as (F1 & F2 & F3 & F4). split; [repeat constructor; intros []|]. split.
    - intros v x [<-|[]] Hx. rewrite (stack_run _ _ _ _ VM) in Hx. apply (proj2 (F4 u _ x (or_introl eq_refl) Hx) eq_refl).
    - right. intros v [<-|[]]. destruct (F3 u (or_introl eq_refl)) as [_ B]. unfold internal_wrappers in B. cbn in *. tauto. }
  { discriminate. }
  { intros v _. apply (main_ok_full e ex relocs EO). }
  { exact C6. } { exact C7. }
  cbn [length wrap_loop] in EL.
  assert (EO1 : wrap_one e (wrap_n e 2) na b (st, pr) = Ok (st', pr')) by (destruct (wrap_one e (wrap_n e 2) na b (st, pr)); exact EL).
  set (c' := mkWC l (wc_tool c) (AtLoop na n (S b) pr')). set (ws' := ws ++ [(i, OWrap [u] (wc_tool c))]). set (r := abinds_user a t [u]) in *.
  assert (Sub : sub_stack a (fst r)) by (intros m y Hy; apply abinds_user_sub; exact Hy).
  exists st', c', (fst r), ch', pend, ws'. split.
  { unfold call_step. rewrite Hat, EO1. reflexivity. }
  assert (Erc : rem_of c' = skipn (length l - n) l) by reflexivity.
  assert (Fl : snd r = snd (abinds_user (Us t (fst (arun A0 (map snd ws)))) t [u])).
  { unfold r. rewrite (user_flag_sim e ex ins_c ins_c_by_prio t [u] _ _ VM). rewrite (user_flag_Us e ex ins_c ins_c_by_prio t t [u]). clear.
    induction pend as [|t' p IH]; cbn [Uall]; [reflexivity|]. rewrite user_flag_Us by exact ins_c_by_prio. exact IH. }
  constructor.
  - eapply srel_perm; [apply Permutation_sym, T2|]. exact S'.
  - unfold ws'. rewrite snoc_run by exact WW. cbn [fst]. change (fst r) with (Ur t [u] a). fold t.
    eapply sim_trans; [apply (Ur_proper e ex ins_c ins_c_by_prio), VM|]. eapply sim_trans; [apply (Ur_proper e ex ins_c ins_c_by_prio), sim_sym, (uall_again pend t), C3|].
    generalize (Us t (fst (arun A0 (map snd ws)))). clear. intros a. apply sim_sym. induction pend as [|t' p IH]; cbn [Uall]; [apply sim_refl|].
    eapply sim_trans; [apply Us_proper, IH|]. apply (Us_Ur e ex ins_c ins_c_by_prio t' t [u]).
  - rewrite upd_length. exact VL.
  - eapply upd_call; [exact Hc| |].
    + split; [exact Hcall|]. unfold cinv, c'. cbn [wc_at wc_binds wc_tool]. fold c'. rewrite Erc. split; [exact C1|]. split; [fold l; lia|]. split; [exact C3|].
      split; [|split; [|split; [exact N'|split; [exact P'|]]]].
      * unfold ws'. rewrite of_call_snoc, Nat.eqb_refl, C4. unfold done_parts, c'. cbn [wc_binds wc_tool]. fold l. destruct l as [|u0 r0] eqn:El; [cbn in C2; lia|].
        rewrite <- El in *. rewrite K2, map_app. reflexivity.
      * intros k v Hv. destruct (C5 (S k) v) as [X Y]; [rewrite Er; exact Hv|]. rewrite Nat.add_succ_r in X, Y. apply (B' _ _ _ X Y).
      * rewrite Z', C8. unfold ws'. rewrite snoc_run by exact WW. cbn [snd]. fold t. rewrite results_snoc by apply run_length. rewrite Nat.eqb_refl, existsb_app, Fl.
        destruct (snd (abinds_user (Us t (fst (arun A0 (map snd ws)))) t [u])); cbn [existsb failed negb]; rewrite ?orb_false_r, ?orb_true_r, ?andb_true_r, ?andb_false_r; reflexivity.
    + intros j d Hd D. destruct (VC j d Hd) as [X Y]. split; [exact X|]. eapply (cinv_other st st' a (fst r) ch (flat_map pend_of cs) pend pend ws ws' i j d); [exact VS|exact B'|exact Sub|auto|right; exists [u], (wc_tool c); split; [reflexivity|exact WW]|exact D|exact Y].
  - apply (upd_pend cs i c c' pend Hc eq_refl VP).
  - intros p Hp. unfold ws' in Hp. apply in_app_or in Hp. destruct Hp as [Hp|[<-|[]]]; [auto|]. cbn [fst]. rewrite <- VL. apply nth_error_Some. congruence.
  - eapply perm_trans; [|exact PB]. unfold ws'. rewrite map_app, user_binds_app, <- app_assoc. apply Permutation_app_head. cbn. constructor. rewrite <- Erc. apply R2.
  - eapply memf_trans; [exact VX|exact M'|exact Sub].
Qed.

Lemma step_leave st cs a ch pend ws i c na b pr : oinv st cs a ch pend ws -> nth_error cs i = Some c -> wc_at c = AtLoop na 0 b pr ->
  exists st' c' a' ch' pend' ws', call_step e st c = Ok (st', c') /\ oinv st' (upd cs i (fun _ => c')) a' ch' pend' ws'.
Proof.
  intros V Hc Hat. destruct V as [VS VM VL VC VP VA VB VX].
  destruct (VC i c Hc) as [Hcall Ci]. unfold cinv in Ci. rewrite Hat in Ci. destruct Ci as (C1 & C2 & C3 & C4 & C5 & C6 & C7 & C8).
  destruct (flat_upd rem_of cs i c Hc) as (rest & R1 & R2 & R3). destruct (flat_upd pend_of cs i c Hc) as (todo & T1 & T2 & T3).
  assert (Er : rem_of c = []) by (unfold rem_of; rewrite Hat, Nat.sub_0_r; apply skipn_all). assert (Ep : pend_of c = []) by (unfold pend_of; rewrite Hat; reflexivity).
  rewrite Er in R1. rewrite Ep in T1. cbn [app] in R1, T1.
  set (c' := mkWC (wc_binds c) (wc_tool c) (Returned (if negb (pr_not_found pr =? 0) then GOTCHA_FUNCTION_NOT_FOUND else GOTCHA_SUCCESS))).
  assert (St : exists st', wrap_leave e st pr = Ok (st', wc_at c') /\ srel F st' a ch todo /\ s_b st' = s_b st /\ memf a (s_p st) (s_p st')).
  { unfold wrap_leave. unfold new_ok in C6. pose proof (srel_perm _ _ _ _ _ _ _ _ _ T1 VS) as S1. destruct (pr_new pr) as [nt|]; cbn [bind].
    - unfold update_all_library_gots. rewrite (sr_maps _ _ _ _ _ _ _ _ VS).
      destruct (update_gots_base e ex relocs _ nt _ C6 (a_maps a) (s_l st) (s_p st) (sr_lib _ _ _ _ _ _ _ _ VS) (sr_l _ _ _ _ _ _ _ _ VS))
          as (l3 & p3 & EG & LB & LG & PM & PF & W & U). rewrite EG. cbn [bind].
      eexists. split; [reflexivity|]. split; [|split; [reflexivity|]].
      + constructor; cbn; try apply S1; auto. rewrite PM. apply S1.
      + split; [auto|]. split; [auto|]. split.
        2:{ eapply wrote_incl; [|exact U]. intros x v (pre & m & rst & n & A1 & A2 & A3 & A4). exists m, n. split; [|auto].
            exists pre, rst. split; [|auto]. rewrite (sr_maps _ _ _ _ _ _ _ _ VS). auto. }
        intros x. destruct (W x) as [Hx|(pre & m & rst & n & A1 & A2 & A3 & A4)]; [auto|]. right. exists m, n. cbn [s_p set_p]. split; [|auto].
        exists pre, rst. split; [|auto]. rewrite (sr_maps _ _ _ _ _ _ _ _ VS). auto.
    - exists st. split; [reflexivity|]. split; [exact S1|]. split; [reflexivity|apply memf_refl]. }
  destruct St as (st' & EL & S' & Eb & M'). exists st', c', a, ch, pend, ws. split.
  { unfold call_step. rewrite Hat, EL. reflexivity. }
  constructor.
  - eapply srel_perm; [apply Permutation_sym, T2|]. exact S'.
  - exact VM.
  - rewrite upd_length. exact VL.
  - eapply upd_call; [exact Hc| |].
    + split; [exact Hcall|]. unfold cinv, c'. cbn [wc_at wc_binds wc_tool]. split.
      * rewrite C4. unfold done_parts, parts. cbn [fst snd]. destruct (wc_binds c) as [|u r] eqn:El; [reflexivity|]. rewrite <- El, Nat.sub_0_r, firstn_all. reflexivity.
      * rewrite C8, negb_involutive. reflexivity.
    + intros j d Hd D. destruct (VC j d Hd) as [X Y]. split; [exact X|]. eapply (cinv_other st st' a a ch (flat_map pend_of cs) pend pend ws ws i j d); [exact VS|rewrite Eb; apply bext_refl|intros ? ?; auto|auto|left; reflexivity|exact D|exact Y].
  - apply (upd_pend cs i c c' pend Hc eq_refl VP).
  - exact VA.
  - eapply perm_trans; [|exact VB]. apply Permutation_app_head. eapply perm_trans; [apply R2|]. apply Permutation_sym. exact R1.
  - eapply memf_trans; [exact VX|exact M'|intros ? ?; auto].
Qed.

Lemma step_any st cs a ch pend ws i c : oinv st cs a ch pend ws -> nth_error cs i = Some c ->
  exists st' c' a' ch' pend' ws', call_step e st c = Ok (st', c') /\ oinv st' (upd cs i (fun _ => c')) a' ch' pend' ws'.
Proof.
  intros V Hc. destruct (wc_at c) as [|na [|n] b pr|code] eqn:Hat; [eapply step_enter; eauto|eapply step_leave; eauto|eapply step_loop; eauto|].
  exists st, c, a, ch, pend, ws. unfold call_step. rewrite Hat. cbn [bind]. split; [rewrite <- Hat; destruct c; reflexivity|]. rewrite (upd_self _ _ _ Hc). exact V.
Qed.
Lemma overlap_run : forall sched st cs a ch pend ws, oinv st cs a ch pend ws ->
  exists st' cs' a' ch' pend' ws', orun e st cs sched = Ok (st', cs') /\ oinv st' cs' a' ch' pend' ws'.
Proof.
  induction sched as [|i r IH]; intros st cs a ch pend ws V; cbn [orun]; [eauto 10|]. destruct (nth_error cs i) as [c|] eqn:Hc; [|eauto].
  destruct (step_any _ _ _ _ _ _ _ _ V Hc) as (st1 & c1 & a1 & ch1 & pend1 & ws1 & E & V1). rewrite E. cbn [bind]. apply (IH _ _ _ _ _ _ V1).
Qed.
End Overlap.
