(** TraceModel does what CoreModel does, and the stores it records are all the stores. *)
From Verif Require Import Base ListFacts HashModel ElfModel ToolModel CoreModel TraceModel CoreMaps CoreRel CoreMicro.

Definition veq (v v' : vis) : Prop :=
  (forall h, v_handles v h = v_handles v' h) /\ (forall i, v_wrappee v i = v_wrappee v' i) /\ (forall x, v_mem v x = v_mem v' x).
Lemma veq_refl v : veq v v.
Proof. repeat split. Qed.
Lemma veq_sym v v' : veq v v' -> veq v' v.
Proof. intros (A & B & C). repeat split; congruence. Qed.
Lemma veq_trans v1 v2 v3 : veq v1 v2 -> veq v2 v3 -> veq v1 v3.
Proof. intros (A & B & C) (A' & B' & C'). repeat split; congruence. Qed.
Lemma vapply_veq v v' w : veq v v' -> veq (vapply v w) (vapply v' w).
Proof.
  intros (A & B & C). destruct w as [h x|i x|a x]; repeat split; cbn; intros; auto.
  - unfold fupd. destruct (_ =? _); auto.
  - destruct (Nat.eqb _ _); auto.
  - unfold fupd. destruct (_ =? _); auto.
Qed.
Lemma vapplys_veq w : forall v v', veq v v' -> veq (vapplys w v) (vapplys w v').
Proof. induction w as [|x r IH]; intros v v' H; cbn; [auto|]. apply IH. apply vapply_veq. auto. Qed.
Lemma vapplys_app w1 w2 v : vapplys (w1 ++ w2) v = vapplys w2 (vapplys w1 v).
Proof. apply fold_left_app. Qed.

(** [m] does what [o] does; its stores lead from [v] to what [f] says of the result *)
Definition mir {A} (m : tmon A) (o : outcome A) (v : vis) (f : A -> vis) : Prop :=
  match o with
  | Ok a => exists w, m = Ok (a, w) /\ veq (vapplys w v) (f a)
  | Fault x => m = Fault x
  end.

Lemma mir_ret {A} (a : A) v f : veq v (f a) -> mir (tret a) (Ok a) v f.
Proof. intros H. exists []. auto. Qed.
Lemma mir_lift {A} (o : outcome A) v f : (forall a, o = Ok a -> veq v (f a)) -> mir (tlift o) o v f.
Proof. intros H. destruct o as [a|x]; cbn; [|reflexivity]. exists []. auto. Qed.
Lemma mir_bind {A B} (m : tmon A) o (k : A -> tmon B) k' v f g :
  mir m o v f -> (forall a, o = Ok a -> mir (k a) (k' a) (f a) g) -> mir (tthen m k) (bind o k') v g.
Proof.
  intros H K. destruct o as [a|x]; cbn [bind] in *; [|unfold mir in H; rewrite H; reflexivity].
  destruct H as (w & -> & E). specialize (K a eq_refl). unfold tthen. cbn [bind]. destruct (k' a) as [b|y]; cbn [mir] in *.
  - destruct K as (w2 & -> & E2). exists (w ++ w2). split; [reflexivity|]. rewrite vapplys_app. eapply veq_trans; [apply vapplys_veq; exact E|exact E2].
  - rewrite K. reflexivity.
Qed.
Lemma mir_lift_then {A B} (o : outcome A) (k : A -> tmon B) k' v g :
  (forall a, o = Ok a -> mir (k a) (k' a) v g) -> mir (tthen (tlift o) k) (bind o k') v g.
Proof. intros H. apply (mir_bind _ _ _ _ _ (fun _ => v)); [apply mir_lift; intros; apply veq_refl|auto]. Qed.
Lemma mir_tell_then {B} w (k : unit -> tmon B) o v g : mir (k tt) o (vapplys w v) g -> mir (tthen (tell w) k) o v g.
Proof.
  intros H. destruct o as [b|x]; unfold mir in *; unfold tthen, tell; cbn [bind].
  - destruct H as (w2 & -> & E). exists (w ++ w2). split; [reflexivity|]. rewrite vapplys_app. auto.
  - rewrite H. reflexivity.
Qed.
Lemma mir_veq {A} (m : tmon A) o v v' f f' : mir m o v f -> veq v v' -> (forall a, o = Ok a -> veq (f a) (f' a)) -> mir m o v' f'.
Proof.
  intros H E F. destruct o as [a|x]; [|auto]. destruct H as (w & -> & E1). exists w. split; [auto|].
  eapply veq_trans; [apply vapplys_veq; apply veq_sym; exact E|]. eapply veq_trans; [exact E1|auto].
Qed.
Lemma mir_Ok {A} (m : tmon A) o v f a w : mir m o v f -> m = Ok (a, w) -> o = Ok a /\ veq (vapplys w v) (f a).
Proof. intros H E. destruct o as [b|x]; cbn in H; [|congruence]. destruct H as (w' & E' & V). rewrite E in E'. injection E' as <- <-. auto. Qed.

(** *** bindings *)
Definition visb (bs : bstate) (mem : Z -> Z) : vis :=
  mkV (b_handles bs) (fun i => match nth_error (b_ib bs) i with Some ib => ib_wrappee ib | None => Uninit end) mem.

Lemma visb_next bs mem i x : veq (visb bs mem) (visb (set_ib (upd (b_ib bs) i (set_inext x)) bs) mem).
Proof.
  repeat split. intros j. cbn. rewrite nth_error_upd. destruct (Nat.eqb i j); [|reflexivity]. destruct (nth_error (b_ib bs) j); reflexivity.
Qed.
Lemma set_wrappee_mir bs mem h x : (forall i, b_handles bs h = Some i -> (i < length (b_ib bs))%nat) ->
  mir (set_wrappee_t bs h x) (set_wrappee bs h x) (visb bs mem) (fun bs' => visb bs' mem).
Proof.
  intros L. unfold set_wrappee_t, set_wrappee. destruct (b_handles bs h) as [i|] eqn:E; [|reflexivity]. cbn. eexists. split; [reflexivity|].
  repeat split. intros j. cbn. rewrite nth_error_upd, Nat.eqb_sym. destruct (Nat.eqb_spec i j) as [->|D]; [|reflexivity].
  destruct (nth_error (b_ib bs) j) eqn:Ej; [reflexivity|]. apply nth_error_None in Ej. specialize (L _ eq_refl). lia.
Qed.
Definition hok (bs : bstate) : Prop := forall h i, b_handles bs h = Some i -> (i < length (b_ib bs))%nat.
Lemma set_wrappee_hok bs h x bs' : set_wrappee bs h x = Ok bs' -> hok bs -> hok bs'.
Proof.
  unfold set_wrappee. destruct (b_handles bs h); [|discriminate]. intros E H. injection E as <-. intros g i Hi. cbn in *. rewrite upd_length. eapply H; eauto.
Qed.

Lemma prepare_mir e st b : hok (s_b st) -> mir (prepare_symbol_t e st b) (prepare_symbol e st b) (vis_of st) (fun r => vis_of (fst r)).
Proof.
  intros H. unfold prepare_symbol_t, prepare_symbol. apply mir_lift_then. intros ib _. apply mir_lift_then. intros [l r] _. destruct r as [a|].
  - eapply mir_bind; [apply (set_wrappee_mir _ (p_mem (s_p st))); intros; eapply H; eauto|]. intros bs _. apply mir_ret. apply veq_refl.
  - apply mir_ret. apply veq_refl.
Qed.
Lemma prepare_hok e st b st' f : prepare_symbol e st b = Ok (st', f) -> hok (s_b st) -> hok (s_b st').
Proof.
  unfold prepare_symbol. intros E H. ib E. iba E as [l r]. destruct r; [|injection E as <- _; auto]. ib E. injection E as <- _.
  eapply set_wrappee_hok in B1; eauto.
Qed.
Lemma insert_at_head_mir bs mem b h : hok bs -> mir (insert_at_head_t bs b h) (insert_at_head bs b h) (visb bs mem) (fun bs' => visb bs' mem).
Proof.
  intros H. unfold insert_at_head_t, insert_at_head. apply mir_veq with (v := visb (set_ib (upd (b_ib bs) b (set_inext (Some h))) bs) mem) (f := fun bs' => visb bs' mem);
    [|apply veq_sym; apply visb_next|intros; apply veq_refl].
  apply mir_lift_then. intros ib _. apply mir_lift_then. intros hb _. eapply mir_bind.
  - apply (set_wrappee_mir _ mem). intros i Hi. cbn in *. rewrite upd_length. eapply H; eauto.
  - intros bs' _. apply mir_lift_then. intros [t x] _. apply mir_lift_then. intros t' _. apply mir_ret. apply veq_refl.
Qed.
Lemma insert_at_head_hok bs b h bs' : insert_at_head bs b h = Ok bs' -> hok bs -> hok bs'.
Proof.
  unfold insert_at_head. intros E H. ib E. ib E. ib E. iba E as [t x]. ib E. injection E as <-. intros g i Hi. cbn in *.
  eapply (set_wrappee_hok _ _ _ _ B1); [|exact Hi]. intros g' i' Hi'. cbn in *. rewrite upd_length. eapply H; eauto.
Qed.
Lemma insert_after_mir bs mem b p : hok bs -> mir (insert_after_pos_t bs b p) (insert_after_pos bs b p) (visb bs mem) (fun bs' => visb bs' mem).
Proof.
  intros H. unfold insert_after_pos_t, insert_after_pos. apply mir_lift_then. intros ib _. apply mir_lift_then. intros pb _.
  eapply mir_bind; [apply (set_wrappee_mir _ mem); apply H|]. intros bs1 E1. pose proof (set_wrappee_hok _ _ _ _ E1 H) as H1. cbv beta.
  eapply mir_bind; [apply (set_wrappee_mir _ mem); apply H1|]. intros bs2 _. cbv beta. apply mir_lift_then. intros pb2 _. apply mir_ret.
  eapply veq_trans; apply visb_next.
Qed.
Lemma insert_after_hok bs b p bs' : insert_after_pos bs b p = Ok bs' -> hok bs -> hok bs'.
Proof.
  unfold insert_after_pos. intros E H. ib E. ib E. ib E. ib E. ib E. injection E as <-. intros g i Hi. cbn in *. rewrite !upd_length.
  eapply (set_wrappee_hok _ _ _ _ B2); [|exact Hi]. eapply set_wrappee_hok; eauto.
Qed.
Lemma place_mir bs mem b n w p : hok bs -> mir (place_binding_t bs b n w p) (place_binding bs b n w p) (visb bs mem) (fun r => visb (fst r) mem).
Proof.
  intros H. unfold place_binding_t, place_binding. apply mir_lift_then. intros [h|] _.
  - apply mir_lift_then. intros hp _. destruct (hp <? p).
    + eapply mir_bind; [apply (insert_at_head_mir _ mem); exact H|]. intros ? _. apply mir_ret. apply veq_refl.
    + apply mir_lift_then. intros [c|] _; [|apply mir_ret; apply veq_refl].
      eapply mir_bind; [apply (insert_after_mir _ mem); exact H|]. intros ? _. apply mir_ret. apply veq_refl.
  - apply mir_lift_then. intros t _. apply mir_ret. apply veq_refl.
Qed.
Lemma place_hok bs b n w p bs' r : place_binding bs b n w p = Ok (bs', r) -> hok bs -> hok bs'.
Proof.
  unfold place_binding. intros E H. iba E as h. destruct h as [h|].
  - ib E. destruct (_ <? p).
    + ib E. injection E as <- _. eapply insert_at_head_hok; eauto.
    + iba E as c. destruct c as [c|]; [|injection E as <- _; auto]. ib E. injection E as <- _. eapply insert_after_hok; eauto.
  - ib E. injection E as <- _. exact H.
Qed.

(** *** GOTs *)
Lemma slots_app l1 l2 : slots (l1 ++ l2) = slots l1 ++ slots l2.
Proof. induction l1 as [|[c|x v] r IH]; cbn; [auto|auto|]. rewrite IH. reflexivity. Qed.
Lemma slots_protect l : slots (map PProtect l) = [].
Proof. induction l; cbn; auto. Qed.
Definition logged (p p' : pstate) : Prop :=
  exists evs, p_log p' = p_log p ++ evs /\ forall bs, veq (vapplys (slots evs) (visb bs (p_mem p))) (visb bs (p_mem p')).
Lemma logged_refl p : logged p p.
Proof. exists []. rewrite app_nil_r. split; [auto|]. intros. apply veq_refl. Qed.
Lemma logged_trans p1 p2 p3 : logged p1 p2 -> logged p2 p3 -> logged p1 p3.
Proof.
  intros (e1 & L1 & V1) (e2 & L2 & V2). exists (e1 ++ e2). split; [rewrite L2, L1, app_assoc; reflexivity|]. intros bs.
  rewrite slots_app, vapplys_app. eapply veq_trans; [apply vapplys_veq; apply V1|apply V2].
Qed.
Lemma lib_bindings_logged ibs a t : forall rels mem log mem' log', update_lib_bindings ibs a t rels mem log = Ok (mem', log') ->
  exists evs, log' = log ++ evs /\ forall bs, veq (vapplys (slots evs) (visb bs mem)) (visb bs mem').
Proof.
  induction rels as [|[o n] r IH]; intros mem log mem' log' E; cbn [update_lib_bindings] in E.
  - injection E as <- <-. exists []. rewrite app_nil_r. split; [auto|]. intros. apply veq_refl.
  - iba E as b. destruct b as [b|]; [|eauto]. ib E. apply IH in E. destruct E as (evs & -> & V). eexists. split; [rewrite <- app_assoc; reflexivity|].
    intros bs. cbn [slots app]. cbn. apply V.
Qed.
Lemma library_logged e ibs t m rest l p l' p' : update_library_got e ibs t m rest (l, p) = Ok (l', p') -> logged p p'.
Proof.
  unfold update_library_got. intros E. iba E as [l1 lib]. iba E as acc. destruct (negb acc); [injection E as _ <-; apply logged_refl|].
  ib E. destruct (_ =? _); [injection E as _ <-; apply logged_refl|]. iba E as [heap log]. iba E as rels. iba E as [mem log2]. injection E as _ <-.
  assert (L : exists calls, log = p_log p ++ map PProtect calls).
  { destruct (lb_writable _); [injection B2 as _ <-; exists []; rewrite app_nil_r; auto|]. ib B2. injection B2 as _ <-. eauto. }
  destruct L as (calls & ->). destruct rels as [rs|].
  - apply lib_bindings_logged in B4. destruct B4 as (evs & -> & V). exists (map PProtect calls ++ evs). cbn. split; [rewrite app_assoc; reflexivity|].
    intros bs. rewrite slots_app, slots_protect. apply V.
  - injection B4 as <- <-. eexists. split; [reflexivity|]. intros bs. rewrite slots_protect. apply veq_refl.
Qed.
Lemma gots_logged e ibs t : forall maps l p l' p', update_gots e ibs t maps (l, p) = Ok (l', p') -> logged p p'.
Proof.
  induction maps as [|m r IH]; intros l p l' p' E; cbn [update_gots] in E; [injection E as _ <-; apply logged_refl|].
  iba E as [l1 p1]. eapply logged_trans; [eapply library_logged; eauto|eauto].
Qed.
Lemma skipn_log {A} (l r : list A) : skipn (length l) (l ++ r) = r.
Proof. rewrite skipn_app, skipn_all, Nat.sub_diag. reflexivity. Qed.
Lemma update_all_mir e t st : mir (update_all_library_gots_t e t st) (update_all_library_gots e t st) (vis_of st) vis_of.
Proof.
  unfold update_all_library_gots_t. unfold update_all_library_gots. destruct (update_gots _ _ _ _ _) as [[l p]|f] eqn:E; cbn [bind mir tlift tthen]; [|reflexivity].
  apply gots_logged in E. destruct E as (evs & L & V). eexists. split; [reflexivity|]. cbn [s_p set_p set_l app]. rewrite L, skipn_log, app_nil_r. apply V.
Qed.
Lemma update_all_b e t st st' : update_all_library_gots e t st = Ok st' -> s_b st' = s_b st.
Proof. unfold update_all_library_gots. intros E. iba E as [l p]. injection E as <-. reflexivity. Qed.

(** *** gotcha_wrap *)
Lemma null_applied ubs : forall v, vapplys (null_stores ubs) v = mkV (null_handles ubs (v_handles v)) (v_wrappee v) (v_mem v).
Proof.
  induction ubs as [|u r IH]; intros v; [destruct v; reflexivity|]. unfold null_stores in *. cbn [map vapplys fold_left vapply]. unfold vapplys in IH. rewrite IH. reflexivity.
Qed.
Lemma null_hok ubs : forall hs k, (forall h i, hs h = Some i -> (i < k)%nat) -> forall h i, null_handles ubs hs h = Some i -> (i < k)%nat.
Proof.
  induction ubs as [|u r IH]; intros hs k H h i Hi; [eapply H; exact Hi|]. cbn in Hi. eapply (IH (fupd hs (ub_handle u) None)); [|exact Hi].
  intros h' i' E. unfold fupd in E. destruct (_ =? _); [discriminate|eauto].
Qed.
Lemma fill_applied tbl ubs : forall ibs hs ibs' hs' mem, fill_bindings tbl ubs ibs hs = (ibs', hs') ->
  veq (vapplys (handle_stores ubs (length ibs)) (mkV hs (fun i => match nth_error ibs i with Some ib => ib_wrappee ib | None => Uninit end) mem))
      (mkV hs' (fun i => match nth_error ibs' i with Some ib => ib_wrappee ib | None => Uninit end) mem) /\
  ((forall h i, hs h = Some i -> (i < length ibs)%nat) -> forall h i, hs' h = Some i -> (i < length ibs')%nat).
Proof.
  induction ubs as [|u r IH]; intros ibs hs ibs' hs' mem E; cbn [fill_bindings handle_stores] in *.
  - injection E as <- <-. split; [apply veq_refl|auto].
  - destruct (IH _ _ _ _ mem E) as [V H]. split.
    + cbn [vapplys fold_left vapply v_handles v_wrappee v_mem]. eapply veq_trans; [|exact V]. rewrite app_length, Nat.add_1_r. apply vapplys_veq. repeat split. intros i. cbn.
      destruct (Nat.lt_ge_cases i (length ibs)) as [L|L]; [rewrite nth_error_app1 by auto; reflexivity|].
      rewrite nth_error_app2 by auto. rewrite (proj2 (nth_error_None ibs i) L). destruct (i - length ibs)%nat; [reflexivity|]. cbn. destruct n; reflexivity.
    + intros K h i Hi. eapply H; [|exact Hi]. intros h' i' E'. rewrite app_length. cbn. unfold fupd in E'. destruct (_ =? _); [injection E' as <-; lia|]. apply K in E'. lia.
Qed.
Lemma add_applied e bs tool ubs bs' tbl mem : add_binding_to_tool e bs tool ubs = Ok (bs', tbl) ->
  veq (vapplys (handle_stores ubs (length (b_ib bs))) (visb bs mem)) (visb bs' mem) /\ (hok bs -> hok bs').
Proof.
  unfold add_binding_to_tool. intros E. destruct (fill_bindings (length (b_tables bs)) ubs (b_ib bs) (b_handles bs)) as [ibs hs] eqn:F. ib E. ib E. ib E. injection E as <- _.
  apply (fill_applied _ _ _ _ _ _ mem) in F. exact F.
Qed.

(** the recursive calls *)
Definition mir_rec (rec : wrap_fun_t) (rec' : wrap_fun) : Prop := forall st ubs t, hok (s_b st) ->
  mir (rec st ubs t) (rec' st ubs t) (vis_of st) (fun r => vis_of (fst r)) /\ (forall st' c, rec' st ubs t = Ok (st', c) -> hok (s_b st')).

Section Rec.
Context (e : env) (rec : wrap_fun_t) (rec' : wrap_fun) (HR : mir_rec rec rec').

Lemma wrap_main_mir st n : hok (s_b st) -> mir (wrap_main_t e rec st n) (wrap_main e rec' st n) (vis_of st) vis_of.
Proof.
  intros H. unfold wrap_main_t, wrap_main. destruct (_ && _); [|apply mir_ret; apply veq_refl].
  set (st0 := mkSt (s_init st) true (s_b st) (s_l st) (s_p st)). destruct (HR st0 (libc_binds e) (Some n_gotcha) H) as [M1 H1].
  eapply mir_bind; [exact M1|]. intros [st1 c1] E1. cbv beta. cbn [fst]. destruct (HR st1 (main_binds e) (Some n_gotcha) (H1 _ _ E1)) as [M2 _].
  eapply mir_bind; [exact M2|]. intros [st2 c2] _. apply mir_ret. apply veq_refl.
Qed.
Lemma wrap_main_hok st n st' : wrap_main e rec' st n = Ok st' -> hok (s_b st) -> hok (s_b st').
Proof.
  unfold wrap_main. intros E H. destruct (_ && _); [|injection E as <-; auto]. iba E as [st1 c1]. iba E as [st2 c2]. injection E as <-.
  eapply HR; [|exact B0]. refine (proj2 (HR _ _ _ _) _ _ B). exact H.
Qed.
Lemma rewrite_mir st b : hok (s_b st) ->
  mir (rewrite_wrapper_orders_t e rec st b) (rewrite_wrapper_orders e rec' st b) (vis_of st) (fun r => vis_of (fst r)).
Proof.
  intros H. unfold rewrite_wrapper_orders_t, rewrite_wrapper_orders. apply mir_lift_then. intros ib _. apply mir_lift_then. intros p _.
  eapply mir_bind; [apply wrap_main_mir; exact H|]. intros st1 E1. pose proof (wrap_main_hok _ _ _ E1 H) as H1.
  eapply mir_bind; [apply (place_mir _ (p_mem (s_p st1))); exact H1|]. intros [bs r] _. apply mir_ret. apply veq_refl.
Qed.
Lemma rewrite_hok st b st' r : rewrite_wrapper_orders e rec' st b = Ok (st', r) -> hok (s_b st) -> hok (s_b st').
Proof.
  unfold rewrite_wrapper_orders. intros E H. ib E. ib E. ib E. iba E as [bs x]. injection E as <- _. eapply place_hok; [exact B2|]. eapply wrap_main_hok; eauto.
Qed.
Lemma wrap_one_mir na b st pr : hok (s_b st) ->
  mir (wrap_one_t e rec na b (st, pr)) (wrap_one e rec' na b (st, pr)) (vis_of st) (fun r => vis_of (fst r)).
Proof.
  intros H. unfold wrap_one_t, wrap_one. eapply mir_bind; [apply rewrite_mir; exact H|]. intros [st1 r] E1. pose proof (rewrite_hok _ _ _ _ E1 H) as H1.
  cbn [fst]. apply mir_lift_then. intros ib _. cbv zeta. apply (mir_bind _ _ _ _ _ (fun r => vis_of (fst r))).
  - destruct (need_lookup r); [|apply mir_ret; apply veq_refl]. eapply mir_bind; [apply prepare_mir; exact H1|]. intros [st2 f] _. cbn [fst].
    destruct f; [apply mir_ret; apply veq_refl|]. apply mir_lift_then. intros t _. apply mir_ret. apply veq_refl.
  - intros [st2 pr2] _. cbn [fst]. destruct (need_binding r); [|apply mir_ret; apply veq_refl]. apply mir_lift_then. intros t _. apply mir_lift_then. intros t' _.
    apply mir_ret. apply veq_refl.
Qed.
Lemma wrap_one_hok na b st pr st' pr' : wrap_one e rec' na b (st, pr) = Ok (st', pr') -> hok (s_b st) -> hok (s_b st').
Proof.
  unfold wrap_one. intros E H. iba E as [st1 r]. ib E. iba E as [st2 pr2]. pose proof (rewrite_hok _ _ _ _ B H) as H1. assert (H2 : hok (s_b st2)).
  { destruct (need_lookup r); [|injection B1 as <- _; auto]. iba B1 as [st3 f]. pose proof (prepare_hok _ _ _ _ _ B2 H1) as H3. destruct f; [injection B1 as <- _; auto|].
    ib B1. injection B1 as <- _. exact H3. }
  destruct (need_binding r); [|injection E as <- _; auto]. ib E. ib E. injection E as <- _. auto.
Qed.
Lemma wrap_loop_mir na : forall n b st pr, hok (s_b st) ->
  mir (wrap_loop_t e rec na n b (st, pr)) (wrap_loop e rec' na n b (st, pr)) (vis_of st) (fun r => vis_of (fst r)).
Proof.
  induction n as [|n IH]; intros b st pr H; cbn [wrap_loop_t wrap_loop]; [apply mir_ret; apply veq_refl|].
  eapply mir_bind; [apply wrap_one_mir; exact H|]. intros [st1 pr1] E1. apply IH. eapply wrap_one_hok; eauto.
Qed.
Lemma wrap_loop_hok na : forall n b st pr st' pr', wrap_loop e rec' na n b (st, pr) = Ok (st', pr') -> hok (s_b st) -> hok (s_b st').
Proof.
  induction n as [|n IH]; intros b st pr st' pr' E H; cbn [wrap_loop] in E; [injection E as <- _; auto|]. iba E as [st1 pr1]. eapply IH; [exact E|]. eapply wrap_one_hok; eauto.
Qed.
Lemma wrap_tool_mir st ubs t : hok (s_b st) ->
  mir (wrap_tool_t e rec st ubs t) (wrap_tool e rec' st ubs t) (vis_of st) (fun r => vis_of (fst r)).
Proof.
  intros H. unfold wrap_tool_t, wrap_tool. apply mir_tell_then. rewrite null_applied.
  set (st0 := set_b (set_handles (null_handles ubs (b_handles (s_b st))) (s_b st)) st). cbv zeta. apply mir_lift_then. intros [ts tool] _.
  match goal with |- context[handle_stores ubs (length (b_ib (s_b ?s)))] => set (st1 := s) end.
  assert (H1 : hok (s_b st1)) by (unfold hok; apply null_hok; exact H).
  apply mir_tell_then. destruct (add_binding_to_tool e (s_b st1) tool ubs) as [[bs tbl]|f] eqn:EA; [|reflexivity].
  destruct (add_applied _ _ _ _ _ _ (p_mem (s_p st)) EA) as [V K]. eapply mir_veq; [|apply veq_sym; exact V|intros; apply veq_refl].
  apply mir_lift_then. intros [bs' tbl'] Ei. injection Ei as <- <-. apply mir_lift_then. intros bt _. eapply mir_bind; [apply (wrap_loop_mir _ _ _ (set_b bs st1)); apply K; exact H1|].
  intros [st2 pr] _. cbn [fst]. apply (mir_bind _ _ _ _ _ vis_of).
  - destruct (pr_new pr); [apply update_all_mir|apply mir_ret; apply veq_refl].
  - intros st3 _. apply mir_ret. apply veq_refl.
Qed.
Lemma wrap_tool_hok st ubs t st' c : wrap_tool e rec' st ubs t = Ok (st', c) -> hok (s_b st) -> hok (s_b st').
Proof.
  unfold wrap_tool. intros E H. iba E as [ts tool]. iba E as [bs tbl]. ib E. iba E as [st2 pr]. iba E as st3. injection E as <- _.
  destruct (add_applied _ _ _ _ _ _ (p_mem (s_p st)) B0) as [_ K]. assert (H2 : hok (s_b st2)).
  { eapply wrap_loop_hok; [exact B2|]. apply K. unfold hok. apply null_hok. exact H. }
  destruct (pr_new pr); [|injection B3 as <-; auto]. rewrite (update_all_b _ _ _ _ B3). auto.
Qed.
Lemma init_mir st : hok (s_b st) -> mir (gotcha_init_t e rec st) (gotcha_init e rec' st) (vis_of st) vis_of.
Proof.
  intros H. unfold gotcha_init_t, gotcha_init. destruct (s_init st); [apply mir_ret; apply veq_refl|]. cbv zeta.
  destruct (setup_hash_tables e (mkSt true (s_main st) (s_b st) (s_l st) (s_p st))) as [st1|f] eqn:E; [|reflexivity]. unfold setup_hash_tables in E. ib E. ib E. ib E. injection E as <-.
  apply mir_lift_then. intros st1 E1. injection E1 as <-. eapply mir_bind; [eapply mir_veq; [apply HR; exact H|apply veq_refl|intros; apply veq_refl]|].
  intros [st2 c] _. apply mir_ret. apply veq_refl.
Qed.
Lemma init_hok st st' : gotcha_init e rec' st = Ok st' -> hok (s_b st) -> hok (s_b st').
Proof.
  unfold gotcha_init. intros E H. destruct (s_init st); [injection E as <-; auto|]. ib E. unfold setup_hash_tables in B. ib B. ib B. ib B. injection B as <-. iba E as [st2 c]. injection E as <-.
  eapply HR; [|exact B]. exact H.
Qed.
Lemma wrap_body_mir : mir_rec (wrap_body_t e rec) (wrap_body e rec').
Proof.
  intros st ubs t H. split.
  - unfold wrap_body_t, wrap_body. eapply mir_bind; [apply init_mir; exact H|]. intros st1 E1. apply wrap_tool_mir. eapply init_hok; eauto.
  - intros st' c E. unfold wrap_body in E. ib E. eapply wrap_tool_hok; [exact E|]. eapply init_hok; eauto.
Qed.
End Rec.
Lemma wrap_n_mir e n : mir_rec (wrap_n_t e n) (wrap_n e n).
Proof. induction n as [|n IH]; [intros st ubs t _; split; [reflexivity|discriminate]|]. apply wrap_body_mir. exact IH. Qed.

(** *** dlopen and operations *)
Lemma per_binding_mir e k d st : hok (s_b st) -> mir (per_binding_t e k d st) (per_binding e k d st) (vis_of st) (fun r => vis_of (fst r)).
Proof.
  intros H. unfold per_binding_t, per_binding. destruct k as [k|]; [|reflexivity]. destruct d as [b|]; [|reflexivity]. apply mir_lift_then. intros b' _.
  eapply mir_bind; [apply prepare_mir; exact H|]. intros [st1 f] _. cbn [fst]. destruct f; [|apply mir_ret; apply veq_refl]. apply mir_lift_then. intros [t x] _. apply mir_ret. apply veq_refl.
Qed.
Lemma per_binding_hok e k d st st' c : per_binding e k d st = Ok (st', c) -> hok (s_b st) -> hok (s_b st').
Proof.
  unfold per_binding. intros E H. destruct k as [k|]; [|discriminate]. destruct d as [b|]; [|discriminate]. ib E. iba E as [st1 f]. pose proof (prepare_hok _ _ _ _ _ B0 H) as H1.
  destruct f; [|injection E as <- _; auto]. iba E as [t x]. injection E as <- _. exact H1.
Qed.
Lemma foreach_loop_mir e v0 : forall fuel i st w, hok (s_b st) -> veq (vapplys w v0) (vis_of st) ->
  match foreach_loop fuel (fun s => b_nf (s_b s)) (per_binding e) i st with
  | Ok (st', c) => hok (s_b st') /\ exists w', foreach_loop fuel (fun x : state * list wevent => b_nf (s_b (fst x)))
         (fun k d x => do ' ((s, r), w) <- per_binding_t e k d (fst x); Ok ((s, snd x ++ w), r)) i (st, w) = Ok ((st', w'), c) /\ veq (vapplys w' v0) (vis_of st')
  | Fault f => foreach_loop fuel (fun x : state * list wevent => b_nf (s_b (fst x)))
         (fun k d x => do ' ((s, r), w) <- per_binding_t e k d (fst x); Ok ((s, snd x ++ w), r)) i (st, w) = Fault f
  end.
Proof.
  induction fuel as [|fuel IH]; intros i st w H V; destruct i as [p|]; cbn [foreach_loop]; eauto. cbn [fst snd].
  destruct (nth_error (ht_table (b_nf (s_b st))) p) as [x|]; [|reflexivity].
  pose proof (per_binding_mir e (he_key x) (he_data x) st H) as M. destruct (per_binding e (he_key x) (he_data x) st) as [[st1 c]|f] eqn:E; cbn [bind mir] in *.
  - destruct M as (w1 & -> & V1). cbn [bind fst snd]. pose proof (per_binding_hok _ _ _ _ _ _ E H) as H1.
    assert (V2 : veq (vapplys (w ++ w1) v0) (vis_of st1)) by (rewrite vapplys_app; eapply veq_trans; [apply vapplys_veq; exact V|exact V1]).
    destruct (negb (c =? 0)); [eauto|]. destruct (nth_error (ht_table (b_nf (s_b st1))) p) as [x'|]; [|reflexivity]. apply IH; auto.
  - rewrite M. reflexivity.
Qed.
Lemma finish_mir e st : hok (s_b st) -> mir (dlopen_finish_t e st) (dlopen_finish e st) (vis_of st) vis_of.
Proof.
  intros H. unfold dlopen_finish_t, dlopen_finish. apply (mir_bind _ _ _ _ _ (fun r => vis_of (fst r))).
  - unfold foreach_hash_entry_t, foreach_hash_entry. cbn [fst]. pose proof (foreach_loop_mir e (vis_of st) (length (ht_table (b_nf (s_b st)))) (ht_head (b_nf (s_b st))) st [] H (veq_refl _)) as M.
    destruct (foreach_loop _ (fun s => b_nf (s_b s)) (per_binding e) _ st) as [[st1 c]|f]; cbn [mir].
    + destruct M as (_ & w & E & V). exists w. rewrite E. auto.
    + rewrite M. reflexivity.
  - intros [st1 c] _. cbn [fst]. apply update_all_mir.
Qed.
Lemma step_mir e st o : hok (s_b st) -> (match o with OLoad _ _ | OUnload _ _ => False | _ => True end) ->
  mir (step_t e st o) (step e st o) (vis_of st) (fun r => vis_of (fst r)).
Proof.
  intros H D. destruct o as [ubs tool|t v|t|f|libs mem| |keep mem]; cbn [step_t step]; try contradiction.
  - eapply mir_bind; [apply (wrap_n_mir e 3); exact H|]. intros [st1 c] _. apply mir_ret. apply veq_refl.
  - unfold gotcha_set_priority, api_init. pose proof (init_mir e _ _ (wrap_n_mir e 3) st H) as M. destruct (gotcha_init e (wrap_n e 3) st) as [st1|f]; cbn [bind mir] in *; [|unfold tthen; rewrite M; reflexivity].
    destruct M as (w & -> & V). destruct (set_priority_int (e_ps e) (b_tools (s_b st1)) t v) as [ts|f] eqn:Es; cbn [bind tthen tlift mir]; rewrite Es; cbn [bind]; [|reflexivity].
    eexists. split; [reflexivity|]. rewrite !app_nil_r. exact V.
  - unfold gotcha_get_priority, api_init. pose proof (init_mir e _ _ (wrap_n_mir e 3) st H) as M. destruct (gotcha_init e (wrap_n e 3) st) as [st1|f]; cbn [bind mir] in *; [|unfold tthen; rewrite M; reflexivity].
    destruct M as (w & -> & V). destruct (get_configuration_value (b_tools (s_b st1)) t) as [[c x]|f] eqn:Es; cbn [bind tthen tlift mir]; rewrite Es; cbn [bind]; [|reflexivity].
    eexists. split; [reflexivity|]. rewrite !app_nil_r. exact V.
  - apply mir_lift. intros a E. injection E as <-. apply veq_refl.
  - destruct (s_init st); [|apply mir_ret; apply veq_refl]. eapply mir_bind; [apply finish_mir; exact H|]. intros st1 _. apply mir_ret. apply veq_refl.
Qed.
