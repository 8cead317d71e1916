(** Threads entering GOTCHA: proofs about ThreadModel. *)
From Verif Require Import Base ListFacts HashModel HashProofs ElfModel SpecElf ToolModel ToolProofs CoreModel SpecCore SpecRun
  CoreMaps CoreRel CoreLib CoreStep CoreWrap CoreLoop CoreMain CoreEnv CoreSpec CoreFacts CoreHist CoreMicro CoreApi3 CoreReg ThreadModel.
From Coq Require Import Permutation.

(** *** more nested calls allowed: the same result *)
Definition extends {A} (x y : outcome A) : Prop := forall a, x = Ok a -> y = Ok a.
Lemma extends_refl {A} (x : outcome A) : extends x x.
Proof. intros a E. exact E. Qed.
Lemma extends_bind {A B} (x y : outcome A) (f g : A -> outcome B) : extends x y -> (forall a, extends (f a) (g a)) -> extends (bind x f) (bind y g).
Proof. intros H K b E. destruct x as [a|]; [|discriminate E]. rewrite (H a eq_refl). cbn [bind] in *. apply K. exact E. Qed.

Section Mono.
Context (e : env) (r1 r2 : wrap_fun) (H : forall st ubs t, extends (r1 st ubs t) (r2 st ubs t)).
Lemma main_ext st n : extends (wrap_main e r1 st n) (wrap_main e r2 st n).
Proof.
  unfold wrap_main. destruct (_ && _); [|apply extends_refl]. apply extends_bind; [apply H|]. intros [st1 c]. apply extends_bind; [apply H|]. intros [st2 c2]. apply extends_refl.
Qed.
Lemma rewrite_ext st b : extends (rewrite_wrapper_orders e r1 st b) (rewrite_wrapper_orders e r2 st b).
Proof.
  unfold rewrite_wrapper_orders. apply extends_bind; [apply extends_refl|]. intros ib. apply extends_bind; [apply extends_refl|]. intros pr.
  apply extends_bind; [apply main_ext|]. intros st1. apply extends_refl.
Qed.
Lemma one_ext na b sp : extends (wrap_one e r1 na b sp) (wrap_one e r2 na b sp).
Proof. unfold wrap_one. destruct sp as [st pr]. apply extends_bind; [apply rewrite_ext|]. intros [st1 r]. apply extends_refl. Qed.
Lemma loop_ext na : forall n b sp, extends (wrap_loop e r1 na n b sp) (wrap_loop e r2 na n b sp).
Proof. induction n as [|n IH]; intros b sp; cbn [wrap_loop]; [apply extends_refl|]. apply extends_bind; [apply one_ext|]. intros sp1. apply IH. Qed.
Lemma tool_ext st ubs t : extends (wrap_tool e r1 st ubs t) (wrap_tool e r2 st ubs t).
Proof.
  unfold wrap_tool. apply extends_bind; [apply extends_refl|]. intros [ts i]. apply extends_bind; [apply extends_refl|]. intros [bs tbl].
  apply extends_bind; [apply extends_refl|]. intros bt. apply extends_bind; [apply loop_ext|]. intros [st1 pr]. apply extends_refl.
Qed.
Lemma init_ext st : extends (gotcha_init e r1 st) (gotcha_init e r2 st).
Proof.
  unfold gotcha_init. destruct (s_init st); [apply extends_refl|]. apply extends_bind; [apply extends_refl|]. intros st1. apply extends_bind; [apply H|]. intros [st2 c]. apply extends_refl.
Qed.
Lemma body_ext st ubs t : extends (wrap_body e r1 st ubs t) (wrap_body e r2 st ubs t).
Proof. unfold wrap_body. apply extends_bind; [apply init_ext|]. intros st1. apply tool_ext. Qed.
End Mono.
Lemma wrap_n_ext e : forall n st ubs t, extends (wrap_n e n st ubs t) (wrap_n e (S n) st ubs t).
Proof.
  induction n as [|n IH]; intros st ubs t; [intros a E; discriminate E|]. change (wrap_n e (S (S n))) with (wrap_body e (wrap_n e (S n))).
  change (wrap_n e (S n)) with (wrap_body e (wrap_n e n)) at 1. apply body_ext. exact IH.
Qed.

(** *** one call: the initialisation, then the work *)
Definition init_of (e : env) (o : op) (st : state) : outcome state := gotcha_init e (nested e o) st.
Lemma step_split e st o : is_api o = true -> step e st o = (do st1 <- init_of e o st; step e st1 o).
Proof.
  intros A. destruct (s_init st) eqn:I; [unfold init_of, gotcha_init; rewrite I; reflexivity|].
  assert (N : forall n st1, gotcha_init e (wrap_n e n) st = Ok st1 -> s_init st1 = true) by (intros n st1 E; apply (inits_of e n st st1 E)).
  destruct o as [ubs tool|t v|t|f|libs mem| |keep mem]; try discriminate A; unfold init_of, nested; cbn [step].
  - unfold gotcha_wrap. change (wrap_n e 3) with (wrap_body e (wrap_n e 2)). unfold wrap_body at 1. destruct (gotcha_init e (wrap_n e 2) st) as [st1|f] eqn:E; cbn [bind]; [|reflexivity].
    unfold wrap_body, gotcha_init. rewrite (N _ _ E). reflexivity.
  - unfold gotcha_set_priority, api_init. destruct (gotcha_init e (wrap_n e 3) st) as [st1|f] eqn:E; cbn [bind]; [|reflexivity].
    unfold gotcha_init. rewrite (N _ _ E). reflexivity.
  - unfold gotcha_get_priority, api_init. destruct (gotcha_init e (wrap_n e 3) st) as [st1|f] eqn:E; cbn [bind]; [|reflexivity].
    unfold gotcha_init. rewrite (N _ _ E). reflexivity.
Qed.

Lemma one_thread e st o : is_api o = true -> s_init st = false ->
  trun e st (entering [o]) [0; 0; 0; 0; 0]%nat = (do ' (st, r) <- step e st o; Ok (st, [mkTh o (Done r)])).
Proof.
  intros A I. rewrite (step_split e st o A). unfold init_of, gotcha_init. rewrite I.
  cbn [trun entering map nth_error upd]. unfold thread_step at 1. cbn [th_at th_call]. rewrite I. cbn [bind].
  unfold thread_step at 1. cbn [th_at th_call bind]. unfold thread_step at 1. cbn [th_at th_call]. unfold set_flag.
  match goal with |- context [setup_hash_tables e ?s] => destruct (setup_hash_tables e s) as [st1|] end; cbn [bind]; [|reflexivity].
  unfold thread_step at 1. cbn [th_at th_call].
  destruct (nested e o st1 (dl_binds e) (Some n_gotcha)) as [[st2 c]|]; cbn [bind]; [|reflexivity].
  unfold thread_step at 1. cbn [th_at th_call].
  destruct (step e st2 o) as [[st3 r]|]; reflexivity.
Qed.

(** *** the flag is set and the tables are not there *)
Lemma zero_fn n : lookup_hashtable (zero_table : htable cstr nat) n = Fault NullDeref.
Proof. reflexivity. Qed.

Lemma add_fills e bs tool t ubs : 48 <= e_ps e -> nth_error (ts_heap (b_tools bs)) tool = Some t ->
  exists h hs bt, add_binding_to_tool e bs tool ubs = Ok (mkBS (mkTS (upd (ts_heap (b_tools bs)) tool (set_tbinding (Some (length (b_tables bs))))) (ts_head (b_tools bs)))
      (b_tables bs ++ [bt]) (Some (length (b_tables bs))) (b_ib bs ++ map (fun u => mkIB (length (b_tables bs)) u None Uninit) ubs) hs (b_fn bs) (b_nf bs), length (b_tables bs)) /\
    bt = mkBT tool (length (b_ib bs)) (Z.of_nat (length ubs)) h (t_binding t) (b_all bs).
Proof.
  intros Hps Ht. unfold add_binding_to_tool.
  destruct (fill_bindings_spec (length (b_tables bs)) ubs (b_ib bs) (b_handles bs)) as (hs & Ef & _ & _). rewrite Ef.
  assert (HC : exists h, (do h <- create_hashtable (e_ps e) (Z.of_nat (length ubs) * 2) strhash libc_strcmp; fill_hash h ubs (length (b_ib bs))) = Ok h).
  { destruct ubs as [|u r].
    - destruct (create_ok (D:=nat) (e_ps e) (Z.of_nat (@length ubind []) * 2) strhash libc_strcmp Hps) as [h ->]. cbn. eauto.
    - destruct (create_spec (D:=nat) (e_ps e) (Z.of_nat (length (u :: r)) * 2) strhash libc_strcmp Hps) as (h & Eh & I & _); [cbn [length]; lia|].
      rewrite Eh. cbn [bind]. eapply CoreWrap.fill_hash_ok; eauto. }
  destruct HC as (h & HC). destruct (create_hashtable (e_ps e) (Z.of_nat (length ubs) * 2) strhash libc_strcmp) as [h0|]; [|discriminate].
  cbn [bind] in HC |- *. rewrite HC. cbn [bind]. rewrite (deref_Ok _ _ _ Ht). cbn [bind]. exists h, hs. eexists. split; reflexivity.
Qed.

Lemma tool_crash e rec st ubs tool l : 48 <= e_ps e -> tools_ok (b_tools (s_b st)) l -> b_fn (s_b st) = zero_table -> ubs <> [] ->
  (s_main st = false -> forall st' l', s_main st' = true -> s_init st' = s_init st -> tools_ok (b_tools (s_b st')) l' -> b_fn (s_b st') = zero_table -> rec st' (libc_binds e) (Some n_gotcha) = Fault NullDeref) ->
  wrap_tool e rec st ubs tool = Fault NullDeref.
Proof.
  intros Hps TO Z NE Hrec. destruct ubs as [|u r]; [contradiction|]. unfold wrap_tool.
  destruct (get_or_create_spec (e_ps e) (b_tools (s_b (set_b (set_handles (null_handles (u :: r) (b_handles (s_b st))) (s_b st)) st))) l (match tool with Some n => n | None => n_unspecified end) Hps TO)
    as (ts & l' & i & t & E & TO' & Ht & _). rewrite E. cbn [bind].
  match goal with |- context [add_binding_to_tool e ?b i _] => destruct (add_fills e b i t (u :: r) Hps Ht) as (h & hs & bt & Ea & ->) end. rewrite Ea. cbn [bind].
  cbn [s_b set_l set_b set_btools set_handles b_tables b_ib b_tools b_fn b_nf b_all] in *.
  unfold deref at 1. cbn [b_tables]. rewrite nth_error_app2 by lia. rewrite Nat.sub_diag. cbn [nth_error bind bt_start length].
  cbn [wrap_loop]. unfold wrap_one at 1. unfold rewrite_wrapper_orders at 1. cbn [s_b set_b b_ib map].
  unfold deref at 1. rewrite nth_error_app2 by lia. rewrite Nat.sub_diag. cbn [nth_error bind ib_user].
  unfold binding_priority. cbn [b_ib b_tables b_tools]. unfold deref at 1. rewrite nth_error_app2 by lia. rewrite Nat.sub_diag. cbn [nth_error bind ib_table].
  unfold deref at 1. rewrite nth_error_app2 by lia. rewrite Nat.sub_diag. cbn [nth_error bind bt_tool]. unfold get_priority. cbn [ts_heap].
  unfold deref at 1. rewrite nth_error_upd, Nat.eqb_refl, Ht. cbn [option_map bind].
  unfold wrap_main. match goal with |- context [if ?c then _ else _] => destruct c eqn:C end.
  - apply andb_true_iff in C. destruct C as [_ C]. cbn [s_main set_b set_l] in C. apply negb_true_iff in C.
    rewrite (Hrec C _ l'); [reflexivity|reflexivity|reflexivity|apply tools_ok_binding; exact TO'|exact Z].
  - cbn [bind]. unfold place_binding. cbn [b_fn s_b set_b]. rewrite Z, zero_fn. reflexivity.
Qed.

Lemma early_crash e st ubs tool l : 48 <= e_ps e -> tools_ok (b_tools (s_b st)) l -> b_fn (s_b st) = zero_table -> s_init st = true -> ubs <> [] ->
  step e st (OWrap ubs tool) = Fault NullDeref.
Proof.
  intros Hps TO Z I NE. cbn [step]. unfold gotcha_wrap. change (wrap_n e 3) with (wrap_body e (wrap_n e 2)). unfold wrap_body, gotcha_init. rewrite I. cbn [bind].
  rewrite (tool_crash e _ st ubs tool l Hps TO Z NE); [reflexivity|].
  intros _ st' l' M' I' TO' Z'. change (wrap_n e 2) with (wrap_body e (wrap_n e 1)). unfold wrap_body, gotcha_init. rewrite I', I. cbn [bind].
  apply (tool_crash e _ st' (libc_binds e) (Some n_gotcha) l' Hps TO' Z'); [discriminate|]. intros X. congruence.
Qed.

(** *** after the initialisation any schedule amounts to some order *)
Definition finished (t : thread) : Prop := exists r, th_at t = Done r.
Definition waiting (t : thread) : Prop := th_at t = AtFlag \/ th_at t = AtWork.

Lemma step_init_kept e st o st' r : is_api o = true -> step e st o = Ok (st', r) -> s_init st = true -> s_init st' = true.
Proof.
  intros A E I. destruct (step_mics e st o st' r) as [(_ & X & _)|(st1 & tr & In & I1 & M & _)]; [destruct o; try discriminate A; exact Logic.I|exact E|congruence|].
  apply mics_frame in M. destruct M as (M & _). congruence.
Qed.

Lemma run_snoc e st ops o st1 rs st2 r : run e st ops = Ok (st1, rs) -> step e st1 o = Ok (st2, r) -> run e st (ops ++ [o]) = Ok (st2, rs ++ [r]).
Proof.
  revert st rs. induction ops as [|p ops IH]; intros st rs E S; cbn [run app] in *.
  - injection E as -> <-. rewrite S. reflexivity.
  - destruct (step e st p) as [[st3 x]|]; [|discriminate E]. cbn [bind] in *. destruct (run e st3 ops) as [[st4 xs]|] eqn:R; [|discriminate E]. cbn [bind] in *. injection E as -> <-.
    rewrite (IH st3 xs R S). reflexivity.
Qed.

(** what holds at each moment: the threads that are through, in the order they worked *)
Record going (e : env) (st0 : state) (calls : list op) (st : state) (ts : list thread) (order : list nat) (rs : list res) : Prop := {
  go_init : s_init st = true;
  go_len : length ts = length calls;
  go_call : forall i t, nth_error ts i = Some t -> nth_error calls i = Some (th_call t);
  go_phase : forall i t, nth_error ts i = Some t -> (waiting t /\ ~ In i order) \/ finished t;
  go_run : run e st0 (map (fun i => nth i calls OFinish) order) = Ok (st, rs);
  go_nodup : NoDup order;
  go_done : forall k i, nth_error order k = Some i -> exists r t, nth_error rs k = Some r /\ nth_error ts i = Some t /\ th_at t = Done r;
  go_in : forall i t, nth_error ts i = Some t -> finished t -> In i order }.

Lemma run_len e : forall ops st st' rs, run e st ops = Ok (st', rs) -> length rs = length ops.
Proof.
  induction ops as [|o ops IH]; intros st st' rs E; cbn [run] in E; [injection E as _ <-; reflexivity|].
  destruct (step e st o) as [[st1 x]|]; [|discriminate E]. cbn [bind] in E. destruct (run e st1 ops) as [[st2 xs]|] eqn:R; [|discriminate E]. cbn [bind] in E. injection E as _ <-. cbn. f_equal. eapply IH. exact R.
Qed.

Lemma going_run e st0 calls : (forall o, In o calls -> is_api o = true) ->
  (forall ops st rs o, (forall p, In p ops -> In p calls) -> In o calls -> run e st0 ops = Ok (st, rs) -> exists st' r, step e st o = Ok (st', r)) ->
  forall sched st ts order rs, going e st0 calls st ts order rs -> exists st' ts' order' rs', trun e st ts sched = Ok (st', ts') /\ going e st0 calls st' ts' order' rs'.
Proof.
  intros A NF. induction sched as [|i sched IH]; intros st ts order rs G; cbn [trun]; [exists st, ts, order, rs; auto|].
  destruct (nth_error ts i) as [t|] eqn:Et; [|eapply IH; exact G].
  pose proof (go_call _ _ _ _ _ _ _ G _ _ Et) as Ec. assert (Hc : In (th_call t) calls) by (eapply nth_error_In; exact Ec).
  assert (Li : (i < length ts)%nat) by (eapply nth_error_Some_lt; exact Et).
  assert (Same : forall t', th_call t' = th_call t -> forall j u, nth_error (upd ts i (fun _ => t')) j = Some u -> nth_error calls j = Some (th_call u)).
  { intros t' Ht j u. rewrite nth_error_upd. destruct (Nat.eqb_spec i j) as [<-|N]; [|apply (go_call _ _ _ _ _ _ _ G)]. rewrite Et. cbn [option_map]. intros X. injection X as <-. rewrite Ht. exact Ec. }
  destruct (go_phase _ _ _ _ _ _ _ G _ _ Et) as [[[P|P] NI]|[r P]]; unfold thread_step; rewrite P; cbn [bind].
  - rewrite (go_init _ _ _ _ _ _ _ G). eapply (IH st _ order rs). destruct G as [G1 G2 G3 G4 G5 G6 G7 G8]. constructor; try assumption.
    + rewrite upd_length. auto.
    + apply Same. reflexivity.
    + intros j u. rewrite nth_error_upd. destruct (Nat.eqb_spec i j) as [<-|N]; [|apply G4]. rewrite Et. cbn [option_map]. intros X. injection X as <-. left. split; [right; reflexivity|auto].
    + intros k j Hk. destruct (G7 k j Hk) as (r & u & B1 & B2 & B3). exists r, u. split; [auto|]. split; [|auto]. rewrite nth_error_upd_neq; [auto|]. intros ->. apply NI. eapply nth_error_In. exact Hk.
    + intros j u. rewrite nth_error_upd. destruct (Nat.eqb_spec i j) as [<-|N]; [|apply G8]. rewrite Et. cbn [option_map]. intros X. injection X as <-. intros [r X]. discriminate X.
  - destruct (NF (map (fun i => nth i calls OFinish) order) st rs (th_call t)) as (st' & r & Es).
    { intros p Hp. apply in_map_iff in Hp. destruct Hp as (j & <- & Hj). apply In_nth_error in Hj. destruct Hj as [k Hk].
      destruct (go_done _ _ _ _ _ _ _ G _ _ Hk) as (r & u & _ & B & _). apply nth_In. rewrite <- (go_len _ _ _ _ _ _ _ G). eapply nth_error_Some_lt. exact B. }
    { exact Hc. }
    { exact (go_run _ _ _ _ _ _ _ G). }
    rewrite Es. cbn [bind]. eapply (IH st' _ (order ++ [i]) (rs ++ [r])). assert (EN : nth i calls OFinish = th_call t) by (apply nth_error_nth; exact Ec).
    destruct G as [G1 G2 G3 G4 G5 G6 G7 G8]. pose proof (run_len _ _ _ _ _ G5) as LR. rewrite map_length in LR. constructor.
    + eapply step_init_kept; [apply A; exact Hc|exact Es|exact G1].
    + rewrite upd_length. auto.
    + apply Same. reflexivity.
    + intros j u. rewrite nth_error_upd. destruct (Nat.eqb_spec i j) as [<-|N].
      * rewrite Et. cbn [option_map]. intros X. injection X as <-. right. exists r. reflexivity.
      * intros X. destruct (G4 j u X) as [[W NJ]|F]; [left|right; auto]. split; [auto|]. rewrite in_app_iff. intros [Y|[Y|[]]]; auto.
    + rewrite map_app. cbn [map]. rewrite EN. eapply run_snoc; eassumption.
    + apply (Permutation_NoDup (Permutation_cons_append order i)). constructor; auto.
    + intros k j Hk. destruct (lt_dec k (length order)) as [L|L].
      * rewrite nth_error_app1 in Hk by auto. destruct (G7 k j Hk) as (r0 & u & B1 & B2 & B3). exists r0, u. rewrite nth_error_app1 by lia. split; [auto|]. split; [|auto].
        rewrite nth_error_upd_neq; [auto|]. intros ->. apply NI. eapply nth_error_In. exact Hk.
      * rewrite nth_error_app2 in Hk by lia. destruct (k - length order)%nat eqn:D; [|destruct n; discriminate Hk]. cbn in Hk. injection Hk as <-.
        exists r, (mkTh (th_call t) (Done r)). rewrite nth_error_app2 by lia. replace (k - length rs)%nat with 0%nat by lia. split; [reflexivity|]. split; [|reflexivity].
        rewrite nth_error_upd_eq, Et. reflexivity.
    + intros j u. rewrite nth_error_upd, in_app_iff. destruct (Nat.eqb_spec i j) as [<-|N]; [intros _ _; right; left; reflexivity|]. intros X Y. left. eapply G8; eauto.
  - eapply (IH st _ order rs). replace (upd ts i (fun _ => t)) with ts; [exact G|]. apply nth_error_ext_eq. intros j. rewrite nth_error_upd. destruct (Nat.eqb_spec i j) as [<-|N]; [|reflexivity]. rewrite Et. reflexivity.
Qed.

Lemma entering_nth calls i t : nth_error (entering calls) i = Some t -> nth_error calls i = Some (th_call t) /\ th_at t = AtFlag.
Proof. unfold entering. rewrite nth_error_map. destruct (nth_error calls i) as [o|]; cbn; intros X; [|discriminate X]. injection X as <-. auto. Qed.
Lemma going_start e st ts calls : s_init st = true -> length ts = length calls -> (forall i t, nth_error ts i = Some t -> nth_error calls i = Some (th_call t) /\ waiting t) ->
  going e st calls st ts [] [].
Proof.
  intros I L W. constructor; auto.
  - intros i t Hi. apply W. exact Hi.
  - intros i t Hi. left. split; [eapply W; exact Hi|intros []].
  - constructor.
  - intros [|k] i Hk; discriminate Hk.
  - intros i t Hi [r Hr]. apply W in Hi. destruct Hi as [_ [Hi|Hi]]; rewrite Hi in Hr; discriminate Hr.
Qed.

(** *** in a process *)
Lemma run_app_of e : forall l1 l2 st, run e st (l1 ++ l2) = (do ' (st1, r1) <- run e st l1; do ' (st2, r2) <- run e st1 l2; Ok (st2, r1 ++ r2)).
Proof.
  induction l1 as [|o l1 IH]; intros l2 st; cbn [run app bind].
  - destruct (run e st l2) as [[st2 r2]|]; reflexivity.
  - destruct (step e st o) as [[st1 r]|]; cbn [bind]; [|reflexivity]. rewrite IH. destruct (run e st1 l1) as [[st2 r1]|]; cbn [bind]; [|reflexivity]. destruct (run e st2 l2) as [[st3 r2]|]; reflexivity.
Qed.

Section Process.
Context (e : env) (maps : list lmap) (mem : Z -> Z) (ops : list op) (st : state) (rs : list res).
Context (P : process_ok e maps ops) (E : run e (init_state maps mem) ops = Ok (st, rs)).

Lemma api_process more : (forall o, In o more -> is_api o = true) -> process_ok e maps (ops ++ more).
Proof.
  intros A. destruct P as [P1 P2 P3]. constructor; auto. intros o m Ho Hm. apply in_app_or in Ho. destruct Ho as [Ho|Ho]; [eapply P3; eauto|].
  apply A in Ho. destruct o; try discriminate Ho; destruct Hm.
Qed.
Lemma api_run more : (forall o, In o more -> is_api o = true) -> exists st' rs', run e st more = Ok (st', rs').
Proof.
  intros A. destruct (run_any e maps mem (ops ++ more) (api_process more A)) as (st' & E' & _). rewrite run_app_of, E in E'. cbn [bind] in E'.
  destruct (run e st more) as [[st1 r1]|]; [eauto|discriminate E'].
Qed.

Lemma pristine : s_init st = false -> b_tools (s_b st) = mkTS [] None /\ b_fn (s_b st) = zero_table.
Proof.
  intros I. destruct (run_any e maps mem ops P) as (st0 & E0 & R). rewrite E in E0. injection E0 as <- _.
  destruct R as [R|[ch S]]; [rewrite (pr_b _ _ _ _ _ R); auto|]. rewrite (sr_init _ _ _ _ _ _ _ _ S) in I. discriminate I.
Qed.
(** the initialisation is the same whichever function makes it *)
Lemma init_same : s_init st = false -> exists st1, s_init st1 = true /\ forall o, is_api o = true -> init_of e o st = Ok st1.
Proof.
  intros I. destruct (run_any e maps mem ops P) as (st0 & E0 & R). rewrite E in E0. injection E0 as <- _.
  destruct R as [R|[ch S]]; [|rewrite (sr_init _ _ _ _ _ _ _ _ S) in I; discriminate I].
  destruct (gotcha_init_spec e (exports e) relocs (po_env _ _ _ P) (wrap_n e 1) False st _ R) as (st1 & ch & E1 & _). change (wrap_body e (wrap_n e 1)) with (wrap_n e 2) in E1.
  exists st1. split; [apply (inits_of e 2 st st1 E1)|]. intros o A. pose proof (init_ext e (wrap_n e 2) (wrap_n e 3) (wrap_n_ext e 2) st st1 E1) as E2.
  unfold init_of, nested. destruct o; try discriminate A; [exact E1|exact E2|exact E2].
Qed.

Lemma serial calls : s_init st = true -> (forall o, In o calls -> is_api o = true) -> forall sched, exists st' ts' order rs', trun e st (entering calls) sched = Ok (st', ts') /\ going e st calls st' ts' order rs'.
Proof.
  intros I A sched. eapply (going_run e st calls A).
  - intros l st2 rs2 o Hl Ho El. destruct (api_run (l ++ [o])) as (st3 & rs3 & E3). { intros p Hp. apply in_app_or in Hp. destruct Hp as [Hp|[<-|[]]]; auto. }
    rewrite run_app_of, El in E3. cbn [bind run] in E3. destruct (step e st2 o) as [[st4 r]|]; [eauto|discriminate E3].
  - apply going_start; [exact I|apply map_length|]. intros i t Hi. apply entering_nth in Hi. destruct Hi as [B C]. split; [exact B|left; exact C].
Qed.

(** all through: the order is complete *)
Lemma going_all calls st0 st' ts' order rs' : going e st0 calls st' ts' order rs' -> (forall t, In t ts' -> finished t) ->
  Permutation order (seq 0 (length calls)) /\
  forall k i, nth_error order k = Some i -> exists r, nth_error rs' k = Some r /\ nth_error ts' i = Some (mkTh (nth i calls OFinish) (Done r)).
Proof.
  intros G Al. split.
  - apply NoDup_Permutation; [exact (go_nodup _ _ _ _ _ _ _ G)|apply seq_NoDup|]. intros i. rewrite in_seq, <- (go_len _ _ _ _ _ _ _ G). split.
    + intros Hi. apply In_nth_error in Hi. destruct Hi as [k Hk]. destruct (go_done _ _ _ _ _ _ _ G _ _ Hk) as (r & t & _ & B & _). apply nth_error_Some_lt in B. lia.
    + intros [_ L]. destruct (nth_error_lt_Some ts' i L) as [t Ht]. eapply (go_in _ _ _ _ _ _ _ G); [exact Ht|]. apply Al. eapply nth_error_In. exact Ht.
  - intros k i Hk. destruct (go_done _ _ _ _ _ _ _ G _ _ Hk) as (r & t & B1 & B2 & B3). exists r. split; [exact B1|]. rewrite B2. f_equal.
    pose proof (go_call _ _ _ _ _ _ _ G _ _ B2) as C. apply (nth_error_nth calls i OFinish) in C. rewrite C. destruct t as [c q]. cbn in *. rewrite B3. reflexivity.
Qed.

(** thread [i] makes the initialisation before the others start *)
Lemma first_init calls i o : s_init st = false -> nth_error calls i = Some o -> is_api o = true -> exists st1, s_init st1 = true /\
  (forall p, is_api p = true -> step e st p = step e st1 p) /\
  forall sched, trun e st (entering calls) (i :: i :: i :: i :: sched) = trun e st1 (upd (entering calls) i (fun _ => mkTh o AtWork)) sched.
Proof.
  intros I Hi A. destruct (init_same I) as (st1 & I1 & Hin). exists st1. split; [exact I1|]. split.
  - intros p Hp. rewrite (step_split e st p Hp), (Hin p Hp). reflexivity.
  - intros sched. specialize (Hin o A). unfold init_of, gotcha_init in Hin. rewrite I in Hin.
    assert (H0 : nth_error (entering calls) i = Some (mkTh o AtFlag)) by (unfold entering; rewrite nth_error_map, Hi; reflexivity).
    cbn [trun]. rewrite H0. unfold thread_step at 1. cbn [th_at th_call]. rewrite I. cbn [bind].
    rewrite nth_error_upd_eq, H0. cbn [option_map]. unfold thread_step at 1. cbn [th_at th_call bind].
    rewrite nth_error_upd_eq, nth_error_upd_eq, H0. cbn [option_map]. unfold thread_step at 1. cbn [th_at th_call]. unfold set_flag.
    match goal with |- context [setup_hash_tables e ?s] => change (setup_hash_tables e s) with (setup_hash_tables e (mkSt true (s_main st) (s_b st) (s_l st) (s_p st))) end.
    destruct (setup_hash_tables e (mkSt true (s_main st) (s_b st) (s_l st) (s_p st))) as [sa|] eqn:Sa; [|discriminate Hin]. cbn [bind] in *.
    rewrite !nth_error_upd_eq, H0. cbn [option_map]. unfold thread_step at 1. cbn [th_at th_call].
    destruct (nested e o sa (dl_binds e) (Some n_gotcha)) as [[sb c]|] eqn:Sb; [|discriminate Hin]. cbn [bind] in *. injection Hin as ->.
    f_equal. apply nth_error_ext_eq. intros j. rewrite !nth_error_upd. destruct (Nat.eqb i j); [|reflexivity]. destruct (nth_error (entering calls) j); reflexivity.
Qed.

Lemma after_init calls sched : (forall o, In o calls -> is_api o = true) ->
  existsb is_api ops = true \/ (exists i rest, (i < length calls)%nat /\ sched = i :: i :: i :: i :: rest) ->
  exists st' ts', trun e st (entering calls) sched = Ok (st', ts') /\
    ((forall t, In t ts' -> exists r, th_at t = Done r) ->
     exists order rs', Permutation order (seq 0 (length calls)) /\ run e st (map (fun i => nth i calls OFinish) order) = Ok (st', rs') /\
       forall k i, nth_error order k = Some i -> exists r, nth_error rs' k = Some r /\ nth_error ts' i = Some (mkTh (nth i calls OFinish) (Done r))).
Proof.
  intros A H. rewrite <- (state_init e maps mem ops st rs P E) in H. destruct (s_init st) eqn:I.
  - destruct (serial calls I A sched) as (st' & ts' & order & rs' & Et & G). exists st', ts'. split; [exact Et|]. intros Al. destruct (going_all calls _ _ _ _ _ G Al) as [B1 B2].
    exists order, rs'. split; [exact B1|]. split; [exact (go_run _ _ _ _ _ _ _ G)|exact B2].
  - destruct H as [H|(i & rest & L & ->)]; [discriminate H|]. destruct (nth_error_lt_Some calls i L) as [o Ho].
    assert (Ao : is_api o = true) by (apply A; eapply nth_error_In; exact Ho).
    destruct (first_init calls i o I Ho Ao) as (st1 & I1 & Hstep & ->).
    assert (Hrun : forall l, l <> [] -> (forall p, In p l -> is_api p = true) -> run e st1 l = run e st l).
    { intros [|p l] N Hl; [contradiction|]. cbn [run]. rewrite (Hstep p); [reflexivity|]. apply Hl. left. reflexivity. }
    destruct (going_run e st1 calls A) with (sched := rest) (st := st1) (ts := upd (entering calls) i (fun _ => mkTh o AtWork)) (order := @nil nat) (rs := @nil res) as (st' & ts' & order & rs' & Et & G).
    + intros l st2 rs2 p Hl Hp El. assert (Hq : forall q, In q (l ++ [p]) -> is_api q = true). { intros q Hq. apply in_app_or in Hq. destruct Hq as [Hq|[<-|[]]]; auto. }
      destruct (api_run (l ++ [p]) Hq) as (st3 & rs3 & E3). rewrite <- Hrun in E3; [|destruct l; discriminate|exact Hq].
      rewrite run_app_of, El in E3. cbn [bind run] in E3. destruct (step e st2 p) as [[st4 r]|]; [eauto|discriminate E3].
    + apply going_start; [exact I1|unfold entering; rewrite upd_length; apply map_length|]. intros j t. rewrite nth_error_upd. destruct (Nat.eqb_spec i j) as [<-|N].
      * unfold entering. rewrite nth_error_map, Ho. cbn. intros X. injection X as <-. split; [reflexivity|right; reflexivity].
      * intros Hj. apply entering_nth in Hj. destruct Hj as [B C]. split; [exact B|left; exact C].
    + exists st', ts'. split; [exact Et|]. intros Al. destruct (going_all calls _ _ _ _ _ G Al) as [B1 B2].
      exists order, rs'. split; [exact B1|]. split; [|exact B2]. rewrite <- Hrun; [exact (go_run _ _ _ _ _ _ _ G)| |].
      * assert (LO := Permutation_length B1). rewrite seq_length in LO. destruct order; [cbn in LO; lia|discriminate].
      * intros p Hp. apply in_map_iff in Hp. destruct Hp as (j & <- & Hj). apply A. apply nth_In. apply (Permutation_in _ B1) in Hj. apply in_seq in Hj. lia.
Qed.

Lemma early_call o ubs tool others : s_init st = false -> ubs <> [] -> trun e st (entering (o :: OWrap ubs tool :: others)) [0; 0; 1; 1]%nat = Fault NullDeref.
Proof.
  intros I NE. destruct (pristine I) as [T F]. cbn [trun entering map nth_error]. unfold thread_step at 1. cbn [th_at th_call]. rewrite I. cbn [bind upd nth_error].
  unfold thread_step at 1. cbn [th_at th_call bind upd nth_error]. unfold thread_step at 1. cbn [th_at th_call s_init set_flag bind upd nth_error].
  unfold thread_step at 1. cbn [th_at th_call]. rewrite (early_crash e (set_flag st) ubs tool []); [reflexivity|apply (eo_ps _ (po_env _ _ _ P))| |exact F|reflexivity|exact NE].
  cbn [set_flag s_b]. rewrite T. constructor; cbn; [constructor|apply Permutation_refl|constructor|constructor|intros t []].
Qed.

(** two threads have both found the flag clear: when the second sets up the tables, what the first has recorded is gone *)
Lemma setup_ok s : exists s', setup_hash_tables e s = Ok s' /\ forall n, outermost s' n = Ok None.
Proof.
  pose proof (eo_ps _ (po_env _ _ _ P)) as Hps. unfold setup_hash_tables.
  destruct (create_spec (K:=lkey) (D:=nat) (e_ps e) 128 link_map_hash link_map_cmp Hps ltac:(lia)) as (lt & Elt & _ & _). rewrite Elt. cbn [bind].
  destruct (smap_create (e_ps e) 4096 Hps ltac:(lia)) as (ft & Eft & Hft). rewrite Eft. cbn [bind].
  destruct (smap_create (e_ps e) 128 Hps ltac:(lia)) as (nt & Ent & Hnt). rewrite Ent. cbn [bind].
  eexists. split; [reflexivity|]. intros n. unfold outermost. cbn [s_init s_b b_fn set_b set_l set_nf set_fn]. destruct (s_init s); [|reflexivity]. rewrite (smap_lookup _ _ n Hft). reflexivity.
Qed.
Lemma forgotten o p others : s_init st = false -> is_api o = true ->
  exists st' r, trun e st (entering (o :: p :: others)) [0; 1; 0; 0; 0; 0; 1; 1]%nat = Ok (st', mkTh o (Done r) :: mkTh p AtDl :: entering others) /\ forall n, outermost st' n = Ok None.
Proof.
  intros I A. destruct (api_run [o]) as (s9 & rs9 & E9). { intros q [<-|[]]. exact A. }
  cbn [run] in E9. rewrite (step_split e st o A) in E9. unfold init_of, gotcha_init in E9. rewrite I in E9.
  cbn [trun entering map nth_error]. unfold thread_step at 1. cbn [th_at th_call]. rewrite I. cbn [bind upd nth_error].
  unfold thread_step at 1. cbn [th_at th_call]. rewrite I. cbn [bind upd nth_error].
  unfold thread_step at 1. cbn [th_at th_call bind upd nth_error]. unfold thread_step at 1. cbn [th_at th_call].
  change (set_flag st) with (mkSt true (s_main st) (s_b st) (s_l st) (s_p st)).
  destruct (setup_hash_tables e (mkSt true (s_main st) (s_b st) (s_l st) (s_p st))) as [sa|]; [|discriminate E9]. cbn [bind upd nth_error] in *.
  unfold thread_step at 1. cbn [th_at th_call].
  destruct (nested e o sa (dl_binds e) (Some n_gotcha)) as [[sb c]|]; [|discriminate E9]. cbn [bind upd nth_error] in *.
  unfold thread_step at 1. cbn [th_at th_call]. destruct (step e sb o) as [[sc r]|]; [|discriminate E9]. cbn [bind upd nth_error] in *.
  unfold thread_step at 1. cbn [th_at th_call bind upd nth_error]. unfold thread_step at 1. cbn [th_at th_call].
  destruct (setup_ok (set_flag sc)) as (sd & -> & Hd). cbn [bind upd]. exists sd, r. split; [reflexivity|exact Hd].
Qed.
End Process.
