(** GOTCHA commutes with moving wrappers and handle variables. *)
From Verif Require Import Base ListFacts HashModel HashProofs ElfModel ToolModel CoreModel SpecCore SpecRun SpecSync SpecMove ToolsProofs.

Section Move.
Context (e : env) (libs : list lmap) (w h : Z -> Z) (MV : moving e libs w h).
Notation e' := (move_env w h e).
Notation mu := (move_bind w h).

Definition mi (b : ibind) : ibind := mkIB (ib_table b) (mu (ib_user b)) (ib_next b) (move_ptr w (ib_wrappee b)).

Record MB (b b' : bstate) : Prop := {
  m_tools : b_tools b' = b_tools b; m_tables : b_tables b' = b_tables b; m_all : b_all b' = b_all b; m_ib : b_ib b' = map mi (b_ib b);
  m_handles : forall x, b_handles b' (h x) = b_handles b x; m_fn : b_fn b' = b_fn b; m_nf : b_nf b' = b_nf b }.
Record MP (p p' : pstate) : Prop := {
  m_maps : p_maps p' = p_maps p; m_mem : forall x, p_mem p' x = w (p_mem p x); m_log : p_log p' = map (move_event w) (p_log p); m_filter : p_filter p' = p_filter p;
  m_known : forall m, In m (p_maps p) -> In m libs }.
Record MS (s s' : state) : Prop := { m_init : s_init s' = s_init s; m_main : s_main s' = s_main s; m_b : MB (s_b s) (s_b s'); m_l : s_l s' = s_l s; m_p : MP (s_p s) (s_p s') }.
Definition MBx {A} (x y : bstate * A) : Prop := MB (fst x) (fst y) /\ snd y = snd x.
Definition MSx {A} (x y : state * A) : Prop := MS (fst x) (fst y) /\ snd y = snd x.

Lemma w_eq a b : (w a =? w b) = (a =? b).
Proof. destruct (Z.eqb_spec a b) as [->|N]; [apply Z.eqb_refl|]. apply Z.eqb_neq. intros H. apply N, (mv_w _ _ _ _ MV), H. Qed.
Lemma h_eq a b : (h a =? h b) = (a =? b).
Proof. destruct (Z.eqb_spec a b) as [->|N]; [apply Z.eqb_refl|]. apply Z.eqb_neq. intros H. apply N, (mv_h _ _ _ _ MV), H. Qed.
Lemma mi_deref l i : orel (fun b b' => b' = mi b) (deref l i) (deref (map mi l) i).
Proof. unfold deref. rewrite nth_error_map. destruct (nth_error l i); reflexivity. Qed.
Lemma mi_upd l i g g' : (forall b, mi (g b) = g' (mi b)) -> upd (map mi l) i g' = map mi (upd l i g).
Proof. intros H. revert i. induction l as [|b l IH]; intros [|i]; cbn [map upd]; try reflexivity; [rewrite H; reflexivity|rewrite IH; reflexivity]. Qed.

Lemma x_wrappee b b' x v : MB b b' -> orel MB (set_wrappee b x v) (set_wrappee b' (h x) (move_ptr w v)).
Proof.
  intros [A1 A2 A3 A4 A5 A6 A7]. unfold set_wrappee. rewrite A5. destruct (b_handles b x) as [i|]; [|reflexivity]. constructor; cbn [set_ib b_tools b_tables b_all b_ib b_handles b_fn b_nf]; auto.
  rewrite A4. apply mi_upd. reflexivity.
Qed.
Lemma x_ib b b' i g g' : (forall b, mi (g b) = g' (mi b)) -> MB b b' -> MB (set_ib (upd (b_ib b) i g) b) (set_ib (upd (b_ib b') i g') b').
Proof. intros G [A1 A2 A3 A4 A5 A6 A7]. constructor; cbn [set_ib b_tools b_tables b_all b_ib b_handles b_fn b_nf]; auto. rewrite A4. apply mi_upd, G. Qed.
Lemma x_fn b b' v : MB b b' -> MB (set_fn v b) (set_fn v b').
Proof. intros []. constructor; auto. Qed.
Lemma x_nf b b' v : MB b b' -> MB (set_nf v b) (set_nf v b').
Proof. intros []. constructor; auto. Qed.
Lemma x_ts b b' v : MB b b' -> MB (set_btools v b) (set_btools v b').
Proof. intros []. constructor; auto. Qed.
Lemma x_get b b' i : MB b b' -> orel (fun b b' => b' = mi b) (deref (b_ib b) i) (deref (b_ib b') i).
Proof. intros H. rewrite (m_ib _ _ H). apply mi_deref. Qed.

Lemma x_head b b' i k : MB b b' -> orel MB (insert_at_head b i k) (insert_at_head b' i k).
Proof.
  intros H. unfold insert_at_head. cbn zeta. pose proof (x_ib b b' i (set_inext (Some k)) (set_inext (Some k)) (fun _ => eq_refl) H) as H1.
  eapply orel_bind; [apply x_get; exact H1|]. intros ib ? ->. eapply orel_bind; [apply x_get; exact H1|]. intros hb ? ->. cbn [mi ib_user move_bind ub_handle ub_wrapper ub_name].
  eapply orel_bind; [apply (x_wrappee _ _ _ (Ptr _)); exact H1|]. intros b2 b2' H2. rewrite (m_fn _ _ H2). apply orel_same. intros [t x]. apply orel_same. intros t2. apply x_fn. exact H2.
Qed.
Lemma x_after b b' i p : MB b b' -> orel MB (insert_after_pos b i p) (insert_after_pos b' i p).
Proof.
  intros H. unfold insert_after_pos. eapply orel_bind; [apply x_get; exact H|]. intros ib ? ->. eapply orel_bind; [apply x_get; exact H|]. intros pb ? ->. cbn [mi ib_user move_bind ub_handle ub_wrapper ub_name ib_wrappee].
  eapply orel_bind; [apply x_wrappee; exact H|]. intros b1 b1' H1. eapply orel_bind; [apply (x_wrappee _ _ _ (Ptr _)); exact H1|]. intros b2 b2' H2.
  eapply orel_bind; [apply x_get; exact H2|]. intros p2 ? ->. cbn zeta. cbn [mi ib_next]. apply x_ib; [reflexivity|]. apply x_ib; [reflexivity|exact H2].
Qed.
Lemma x_prio b b' i : MB b b' -> orel eq (binding_priority b i) (binding_priority b' i).
Proof.
  intros H. unfold binding_priority. eapply orel_bind; [apply x_get; exact H|]. intros ib ? ->. cbn [mi ib_table]. rewrite (m_tables _ _ H), (m_tools _ _ H). apply orel_refl.
Qed.
Lemma x_order b b' v p : MB b b' -> forall fuel cur, orel eq (order_loop fuel b v p cur) (order_loop fuel b' (w v) p cur).
Proof.
  intros H. induction fuel as [|n IH]; intros cur; [reflexivity|]. cbn [order_loop]. eapply orel_bind; [apply x_get; exact H|]. intros c ? ->. cbn [mi ib_next ib_user move_bind ub_wrapper]. destruct (ib_next c) as [nx|]; [|reflexivity].
  eapply orel_bind; [apply x_prio; exact H|]. intros q ? <-. rewrite w_eq. destruct (q <? p); [reflexivity|]. destruct (_ =? v); [reflexivity|]. apply IH.
Qed.
Lemma x_place b b' i n v p : MB b b' -> orel MBx (place_binding b i n v p) (place_binding b' i n (w v) p).
Proof.
  intros H. unfold place_binding. rewrite (m_fn _ _ H). apply orel_same. intros [k|].
  - eapply orel_bind; [apply x_prio; exact H|]. intros q ? <-. destruct (q <? p).
    + eapply orel_bind; [apply x_head; exact H|]. intros b1 b1' H1. split; [exact H1|reflexivity].
    + rewrite (m_ib _ _ H), map_length. eapply orel_bind; [apply x_order; exact H|]. intros c ? <-. destruct c as [pos|]; [|split; [exact H|reflexivity]]. eapply orel_bind; [apply x_after; exact H|]. intros b1 b1' H1. split; [exact H1|reflexivity].
  - apply orel_same. intros t. split; [apply x_fn; exact H|reflexivity].
Qed.

(** states *)
Lemma s_set_b s s' b b' : MS s s' -> MB b b' -> MS (set_b b s) (set_b b' s').
Proof. intros [A B C D E] H. constructor; auto. Qed.
Lemma s_set_l s s' l : MS s s' -> MS (set_l l s) (set_l l s').
Proof. intros [A B C D E]. constructor; auto. Qed.
Definition good (rec rec' : wrap_fun) : Prop := forall s s' ubs t, MS s s' -> orel MSx (rec s ubs t) (rec' s' (map mu ubs) t).
Lemma x_main rec rec' s s' n : good rec rec' -> MS s s' -> orel MS (wrap_main e rec s n) (wrap_main e' rec' s' n).
Proof.
  intros G H. unfold wrap_main. rewrite (m_main _ _ H). destruct (_ && _); [|exact H].
  assert (H0 : MS (mkSt (s_init s) true (s_b s) (s_l s) (s_p s)) (mkSt (s_init s') true (s_b s') (s_l s') (s_p s'))) by (destruct H; constructor; auto).
  change (libc_binds e') with (map mu (libc_binds e)). change (main_binds e') with (map mu (main_binds e)).
  eapply orel_bind; [apply G; exact H0|]. intros [s1 c] [s1' c'] [H1 _]. eapply orel_bind; [apply G; exact H1|]. intros [s2 d] [s2' d'] [H2 _]. exact H2.
Qed.
Lemma x_rwo rec rec' s s' b : good rec rec' -> MS s s' -> orel MSx (rewrite_wrapper_orders e rec s b) (rewrite_wrapper_orders e' rec' s' b).
Proof.
  intros G H. unfold rewrite_wrapper_orders. eapply orel_bind; [apply x_get, (m_b _ _ H)|]. intros ib ? ->. eapply orel_bind; [apply x_prio, (m_b _ _ H)|]. intros p ? <-. cbn [mi ib_user move_bind ub_name ub_wrapper].
  eapply orel_bind; [apply x_main; eassumption|]. intros s1 s1' H1. eapply orel_bind; [apply x_place, (m_b _ _ H1)|]. intros [b1 x] [b1' x'] [H2 H3]. cbn [fst snd] in *. subst x'. split; [apply s_set_b; assumption|reflexivity].
Qed.
Lemma x_prepare_loop n : forall maps l, (forall m, In m maps -> In m libs) -> orel (fun x y => y = x /\ (forall a, snd x = Some a -> w a = a)) (prepare_loop e maps n l) (prepare_loop e' maps n l).
Proof.
  induction maps as [|m maps IH]; intros l K; cbn [prepare_loop]; [split; [reflexivity|discriminate]|]. apply orel_same. intros [l1 k]. change (e_vdso e' m) with (e_vdso e m).
  pose proof (mv_exports _ _ _ _ MV m n) as X. unfold exports in X. destruct (lookup_exported_symbol (e_vdso e m) n m) as [[a|]|]; cbn [bind].
  - split; [reflexivity|]. cbn [snd]. intros a0 [= <-]. apply X; [apply K; left; reflexivity|reflexivity].
  - apply IH. intros m' Hm. apply K. right. exact Hm.
  - reflexivity.
Qed.
Lemma x_prepare s s' b : MS s s' -> orel MSx (prepare_symbol e s b) (prepare_symbol e' s' b).
Proof.
  intros H. unfold prepare_symbol. eapply orel_bind; [apply x_get, (m_b _ _ H)|]. intros ib ? ->. cbn [mi ib_user move_bind ub_name ub_handle]. rewrite (m_maps _ _ (m_p _ _ H)), (m_l _ _ H).
  eapply orel_bind; [apply x_prepare_loop, (m_known _ _ (m_p _ _ H))|]. intros [l r] ? [-> F]. cbn [snd] in F. destruct r as [a|].
  - cbn [s_b set_l]. rewrite <- (F a eq_refl) at 2. eapply orel_bind; [apply (x_wrappee _ _ _ (Ptr a)), (m_b _ _ H)|]. intros b1 b1' H1. split; [|reflexivity]. apply s_set_b; [apply s_set_l; exact H|exact H1].
  - split; [|reflexivity]. apply s_set_l. exact H.
Qed.
Lemma x_one rec rec' na b sp sp' : good rec rec' -> MSx sp sp' -> orel MSx (wrap_one e rec na b sp) (wrap_one e' rec' na b sp').
Proof.
  intros G H. destruct sp as [s pr], sp' as [s' pr']. destruct H as [H E]. cbn [fst snd] in *. subst pr'. unfold wrap_one.
  eapply orel_bind; [apply x_rwo; eassumption|]. intros [s1 x] [s1' x'] [H1 E1]. cbn [fst snd] in *. subst x'. eapply orel_bind; [apply x_get, (m_b _ _ H1)|]. intros ib ? ->. cbn [mi ib_user move_bind ub_name].
  change (e_ps e') with (e_ps e). eapply (orel_bind MSx).
  - destruct (need_lookup x); [|split; [exact H1|reflexivity]]. eapply orel_bind; [apply x_prepare; exact H1|]. intros [s2 fd] [s2' fd'] [H2 E2]. cbn [fst snd] in *. subst fd'. destruct fd; [split; [exact H2|reflexivity]|].
    rewrite (m_nf _ _ (m_b _ _ H2)). apply orel_same. intros t. split; [|reflexivity]. apply s_set_b; [exact H2|]. apply x_nf, (m_b _ _ H2).
  - intros [s2 p2] [s2' p2'] [H2 E2]. cbn [fst snd] in *. subst p2'. destruct (need_binding x); [|split; [exact H2|reflexivity]]. apply orel_same. intros t. apply orel_same. intros t2. split; [exact H2|reflexivity].
Qed.
Lemma x_loop rec rec' na : good rec rec' -> forall n b sp sp', MSx sp sp' -> orel MSx (wrap_loop e rec na n b sp) (wrap_loop e' rec' na n b sp').
Proof. intros G. induction n as [|n IH]; intros b sp sp' H; cbn [wrap_loop]; [exact H|]. eapply orel_bind; [apply x_one; eassumption|]. intros a a' Ha. apply IH. exact Ha. Qed.

(** call sites *)
Definition ML (x y : (Z -> Z) * list pevent) : Prop := (forall a, fst y a = w (fst x a)) /\ snd y = map (move_event w) (snd x).
Lemma x_lib_bindings ibs a t : forall rs mem mem' log log', ML (mem, log) (mem', log') -> orel ML (update_lib_bindings ibs a t rs mem log) (update_lib_bindings (map mi ibs) a t rs mem' log').
Proof.
  induction rs as [|[off n] rs IH]; intros mem mem' log log' H; [exact H|]. cbn [update_lib_bindings]. apply orel_same. intros [b|]; [|apply IH; exact H].
  eapply orel_bind; [apply mi_deref|]. intros ib ? ->. cbn [mi ib_user move_bind ub_wrapper]. apply IH. destruct H as [H1 H2]. cbn [fst snd] in *. subst log'. split; cbn [fst snd].
  - intros x. unfold fupd. destruct (x =? _); [reflexivity|apply H1].
  - rewrite map_app. reflexivity.
Qed.
Definition MLP (x y : lstate * pstate) : Prop := fst y = fst x /\ MP (snd x) (snd y).
Lemma protect_events l : map (move_event w) (map PProtect l) = map PProtect l.
Proof. rewrite map_map. reflexivity. Qed.
Lemma x_library_got ibs t m rest lp lp' : MLP lp lp' -> orel MLP (update_library_got e ibs t m rest lp) (update_library_got e' (map mi ibs) t m rest lp').
Proof.
  destruct lp as [l p], lp' as [l' p']. intros [E H]. cbn [fst snd] in *. subst l'. unfold update_library_got. apply orel_same. intros [l1 lib]. rewrite (m_filter _ _ H). apply orel_same. intros acc.
  destruct (negb acc); [split; [reflexivity|exact H]|]. apply orel_same. intros lb. destruct (_ =? _); [split; [reflexivity|exact H]|]. rewrite (m_maps _ _ H). change (e_ps e') with (e_ps e). change (e_phdrs e') with (e_phdrs e).
  eapply (orel_bind (fun x y => fst y = fst x /\ snd y = map (move_event w) (snd x))).
  { destruct (lb_writable lb); [split; [reflexivity|apply (m_log _ _ H)]|]. apply orel_same. intros calls. split; [reflexivity|]. cbn [snd]. rewrite map_app, protect_events, (m_log _ _ H). reflexivity. }
  intros [hp lg] [hp' lg'] [A B]. cbn [fst snd] in *. subst hp' lg'. apply orel_same. intros rels. eapply (orel_bind ML).
  { destruct rels as [rs|]; [|split; [apply (m_mem _ _ H)|reflexivity]]. apply x_lib_bindings. split; [apply (m_mem _ _ H)|reflexivity]. }
  intros [mem lg2] [mem' lg2'] [A B]. cbn [fst snd] in *. subst lg2'. split; [reflexivity|]. cbn [snd]. destruct H. constructor; auto.
Qed.
Lemma x_update_gots ibs t : forall maps lp lp', MLP lp lp' -> orel MLP (update_gots e ibs t maps lp) (update_gots e' (map mi ibs) t maps lp').
Proof. induction maps as [|m maps IH]; intros lp lp' H; [exact H|]. cbn [update_gots]. eapply orel_bind; [apply x_library_got; exact H|]. exact IH. Qed.
Lemma x_gots t s s' : MS s s' -> orel MS (update_all_library_gots e t s) (update_all_library_gots e' t s').
Proof.
  intros H. unfold update_all_library_gots. rewrite (m_ib _ _ (m_b _ _ H)), (m_maps _ _ (m_p _ _ H)), (m_l _ _ H). eapply orel_bind; [apply x_update_gots; split; [reflexivity|apply (m_p _ _ H)]|].
  intros [l p] [l' p'] [E X]. cbn [fst snd] in *. subst l'. destruct H. constructor; auto.
Qed.

(** the bindings of a call *)
Lemma x_fill_hash : forall ubs t i, fill_hash t (map mu ubs) i = fill_hash t ubs i.
Proof. induction ubs as [|u r IH]; intros t i; [reflexivity|]. cbn [map fill_hash move_bind ub_name]. destruct (addto_hashtable t _ _); [apply IH|reflexivity]. Qed.
Lemma fupd_h (hs hs' : Z -> option nat) a v : (forall x, hs' (h x) = hs x) -> forall x, fupd hs' (h a) v (h x) = fupd hs a v x.
Proof. intros H x. unfold fupd. rewrite h_eq, H. reflexivity. Qed.
Lemma x_fill tbl : forall ubs ibs hs hs', (forall x, hs' (h x) = hs x) ->
  let y := fill_bindings tbl ubs ibs hs in let y' := fill_bindings tbl (map mu ubs) (map mi ibs) hs' in fst y' = map mi (fst y) /\ forall x, snd y' (h x) = snd y x.
Proof.
  induction ubs as [|u r IH]; intros ibs hs hs' H; [split; [reflexivity|exact H]|]. cbn zeta. cbn [map fill_bindings]. rewrite map_length.
  replace (map mi ibs ++ [mkIB tbl (mu u) None Uninit]) with (map mi (ibs ++ [mkIB tbl u None Uninit])) by (rewrite map_app; reflexivity). apply IH. apply (fupd_h _ _ (ub_handle u)), H.
Qed.
Lemma x_null : forall ubs hs hs', (forall x, hs' (h x) = hs x) -> forall x, null_handles (map mu ubs) hs' (h x) = null_handles ubs hs x.
Proof. induction ubs as [|u r IH]; intros hs hs' H; [exact H|]. cbn [map null_handles fold_left move_bind ub_handle]. apply IH. apply fupd_h, H. Qed.
Lemma x_add b b' ti ubs : MB b b' -> orel MBx (add_binding_to_tool e b ti ubs) (add_binding_to_tool e' b' ti (map mu ubs)).
Proof.
  intros H. unfold add_binding_to_tool. rewrite (m_tables _ _ H), (m_ib _ _ H), !map_length, (m_tools _ _ H), (m_all _ _ H). change (e_ps e') with (e_ps e).
  pose proof (x_fill (length (b_tables b)) ubs (b_ib b) (b_handles b) (b_handles b') (m_handles _ _ H)) as X. cbn zeta in X.
  destruct (fill_bindings _ ubs (b_ib b) _) as [ibs hs]. destruct (fill_bindings _ (map mu ubs) _ _) as [ibs' hs']. cbn [fst snd] in X. destruct X as [-> X].
  apply orel_same. intros h1. rewrite x_fill_hash. apply orel_same. intros h2. apply orel_same. intros t. split; [|reflexivity]. destruct H. constructor; auto.
Qed.
Lemma x_wrap_tool rec rec' s s' ubs t : good rec rec' -> MS s s' -> orel MSx (wrap_tool e rec s ubs t) (wrap_tool e' rec' s' (map mu ubs) t).
Proof.
  intros G H. unfold wrap_tool. rewrite !map_length. change (e_ps e') with (e_ps e). cbn zeta.
  assert (H1 : MS (set_b (set_handles (null_handles ubs (b_handles (s_b s))) (s_b s)) s) (set_b (set_handles (null_handles (map mu ubs) (b_handles (s_b s'))) (s_b s')) s')).
  { apply s_set_b; [exact H|]. pose proof (x_null ubs _ _ (m_handles _ _ (m_b _ _ H))) as X. destruct (m_b _ _ H). constructor; auto. }
  set (s1 := set_b _ s) in *. set (s1' := set_b _ s') in *. clearbody s1 s1'. clear H s s'. rewrite (m_tools _ _ (m_b _ _ H1)). apply orel_same. intros [ts k].
  pose proof (s_set_b _ _ _ _ H1 (x_ts _ _ ts (m_b _ _ H1))) as H2. set (s2 := set_b _ s1) in *. set (s2' := set_b _ s1') in *. clearbody s2 s2'. clear H1. rewrite (m_l _ _ H2). set (l2 := mkLS _ _ _ _). pose proof (s_set_l _ _ l2 H2) as H3.
  eapply orel_bind; [apply x_add, (m_b _ _ H3)|]. intros [b j] [b' j'] [H4 Ej]. cbn [fst snd] in *. subst j'. rewrite (m_tables _ _ H4). apply orel_same. intros bt.
  eapply orel_bind; [apply x_loop; [exact G|]; split; [apply s_set_b; [exact H3|exact H4]|reflexivity]|]. intros [s4 pr] [s4' pr'] [H5 E5]. cbn [fst snd] in *. subst pr'.
  eapply (orel_bind MS); [destruct (pr_new pr); [apply x_gots|]; exact H5|]. intros s5 s5' H6. split; [exact H6|reflexivity].
Qed.
Lemma x_init rec rec' s s' : good rec rec' -> MS s s' -> orel MS (gotcha_init e rec s) (gotcha_init e' rec' s').
Proof.
  intros G H. unfold gotcha_init. rewrite (m_init _ _ H). destruct (s_init s); [exact H|].
  eapply (orel_bind MS).
  - unfold setup_hash_tables. change (e_ps e') with (e_ps e). apply orel_same. intros lt. apply orel_same. intros ft. apply orel_same. intros nt. cbn [s_l s_b]. rewrite (m_l _ _ H). destruct H as [A B C D E]. constructor; auto. cbn [s_b set_b set_l]. apply x_nf, x_fn, C.
  - intros s1 s1' H1. change (dl_binds e') with (map mu (dl_binds e)). eapply orel_bind; [apply G; exact H1|]. intros [s2 c] [s2' c'] [H2 _]. exact H2.
Qed.
Lemma x_wrap_n : forall n, good (wrap_n e n) (wrap_n e' n).
Proof.
  induction n as [|n IH]; intros s s' ubs t H; [reflexivity|]. cbn [wrap_n]. unfold wrap_body. eapply orel_bind; [apply x_init; [exact IH|exact H]|]. intros s1 s1' H1. apply x_wrap_tool; assumption.
Qed.
Lemma x_innermost ibs : forall n b, innermost n (map mi ibs) b = innermost n ibs b.
Proof.
  induction n as [|n IH]; intros b; [reflexivity|]. cbn [innermost]. unfold deref. rewrite nth_error_map. destruct (nth_error ibs b) as [ib|]; [|reflexivity]. cbn [option_map bind mi ib_next]. destruct (ib_next ib); [apply IH|reflexivity].
Qed.
Lemma x_per k x s s' : MS s s' -> orel MSx (per_binding e k x s) (per_binding e' k x s').
Proof.
  intros H. unfold per_binding. destruct k as [k|]; [|reflexivity]. destruct x as [b|]; [|reflexivity]. rewrite (m_ib _ _ (m_b _ _ H)), map_length, x_innermost. apply orel_same. intros b2.
  eapply orel_bind; [apply x_prepare; exact H|]. intros [s1 fd] [s1' fd'] [H1 E]. cbn [fst snd] in *. subst fd'. destruct fd; [|split; [exact H1|reflexivity]]. rewrite (m_nf _ _ (m_b _ _ H1)).
  apply orel_same. intros [t y]. split; [|reflexivity]. apply s_set_b; [exact H1|]. apply x_nf, (m_b _ _ H1).
Qed.
Lemma x_finish s s' : MS s s' -> orel MS (dlopen_finish e s) (dlopen_finish e' s').
Proof.
  intros H. unfold dlopen_finish, foreach_hash_entry. rewrite (m_nf _ _ (m_b _ _ H)).
  assert (L : forall n i s s', MS s s' -> orel MSx (foreach_loop n (fun s => b_nf (s_b s)) (per_binding e) i s) (foreach_loop n (fun s => b_nf (s_b s)) (per_binding e') i s')).
  { induction n as [|n IH]; intros [i|] u u' Hu; try reflexivity; try (split; [exact Hu|reflexivity]). cbn [foreach_loop]. rewrite (m_nf _ _ (m_b _ _ Hu)). destruct (nth_error _ i) as [x|]; [|reflexivity].
    eapply orel_bind; [apply x_per; exact Hu|]. intros [u1 c] [u1' c'] [H1 E]. cbn [fst snd] in *. subst c'. destruct (negb _); [split; [exact H1|reflexivity]|]. rewrite (m_nf _ _ (m_b _ _ H1)). destruct (nth_error _ i); [apply IH; exact H1|reflexivity]. }
  eapply orel_bind; [apply L; exact H|]. intros [s1 c] [s1' c'] [H1 _]. cbn [fst] in H1. rewrite (m_fn _ _ (m_b _ _ H1)). apply x_gots. exact H1.
Qed.

(** *** operations *)
Lemma x_step s s' o : MS s s' -> (forall m, In m (op_libs o) -> In m libs) -> orel MSx (step e s o) (step e' s' (move_op w h o)).
Proof.
  intros H K. destruct o as [ubs t|t v|t|f|ms mem| |keep mem]; cbn [step move_op].
  - eapply orel_bind; [apply (x_wrap_n 3); exact H|]. intros [s1 c] [s1' c'] [H1 E]. cbn [fst snd] in *. subst c'. split; [exact H1|reflexivity].
  - eapply (orel_bind MSx); [|intros [s1 c] [s1' c'] [H1 E]; cbn [fst snd] in *; subst c'; split; [exact H1|reflexivity]]. unfold gotcha_set_priority, api_init.
    eapply orel_bind; [apply x_init; [apply x_wrap_n|exact H]|]. intros s1 s1' H1. change (e_ps e') with (e_ps e). rewrite (m_tools _ _ (m_b _ _ H1)). apply orel_same. intros ts. split; [|reflexivity]. apply s_set_b; [exact H1|]. apply x_ts, (m_b _ _ H1).
  - eapply (orel_bind MSx); [|intros [s1 [c x]] [s1' [c' x']] [H1 E]; cbn [fst snd] in *; injection E as -> ->; split; [exact H1|reflexivity]]. unfold gotcha_get_priority, api_init.
    eapply orel_bind; [apply x_init; [apply x_wrap_n|exact H]|]. intros s1 s1' H1. rewrite (m_tools _ _ (m_b _ _ H1)). apply orel_same. intros r. split; [exact H1|reflexivity].
  - split; [|reflexivity]. cbn [fst]. destruct H as [A B C D [E1 E2 E3 E4 E5]]. constructor; auto. constructor; auto.
  - split; [|reflexivity]. cbn [fst]. destruct H as [A B C D [E1 E2 E3 E4 E5]]. constructor; auto. constructor; cbn [p_maps p_mem p_log p_filter set_p s_p]; auto; [rewrite E1; reflexivity|].
    intros m Hm. apply in_app_or in Hm. destruct Hm; auto.
  - rewrite (m_init _ _ H). destruct (s_init s); [|split; [exact H|reflexivity]]. eapply orel_bind; [apply x_finish; exact H|]. intros s1 s1' H1. split; [exact H1|reflexivity].
  - split; [|reflexivity]. cbn [fst]. destruct H as [A B C D [E1 E2 E3 E4 E5]]. constructor; auto. constructor; cbn [p_maps p_mem p_log p_filter set_p s_p]; auto; [rewrite E1; reflexivity|].
    intros m Hm. apply filter_In in Hm. apply E5, Hm.
Qed.
Lemma x_run : forall ops s s', MS s s' -> (forall m, In m (flat_map op_libs ops) -> In m libs) -> orel MSx (run e s ops) (run e' s' (map (move_op w h) ops)).
Proof.
  induction ops as [|o r IH]; intros s s' H K; cbn [map run]; [split; [exact H|reflexivity]|]. eapply orel_bind; [apply x_step; [exact H|intros m Hm; apply K; cbn; apply in_or_app; auto]|].
  intros [s1 x] [s1' x'] [H1 E]. cbn [fst snd] in *. subst x'. eapply orel_bind; [apply IH; [exact H1|intros m Hm; apply K; cbn; apply in_or_app; auto]|].
  intros [s2 xs] [s2' xs'] [H2 E]. cbn [fst snd] in *. subst xs'. split; [exact H2|reflexivity].
Qed.
Lemma x_start maps mem : (forall m, In m maps -> In m libs) -> MS (init_state maps mem) (init_state maps (fun x => w (mem x))).
Proof. intros K. constructor; [reflexivity|reflexivity|constructor; reflexivity|reflexivity|constructor; auto]. Qed.

(** *** observations *)
Lemma x_wrappee_of s s' x : MS s s' -> orel (fun p p' => p' = move_ptr w p) (gotcha_get_wrappee s x) (gotcha_get_wrappee s' (h x)).
Proof.
  intros H. unfold gotcha_get_wrappee. rewrite (m_handles _ _ (m_b _ _ H)). destruct (b_handles (s_b s) x) as [i|]; [|reflexivity]. eapply orel_bind; [apply x_get, (m_b _ _ H)|]. intros ib ? ->. reflexivity.
Qed.
Lemma x_outermost s s' n : MS s s' -> orel (fun p p' => p' = option_map w p) (outermost s n) (outermost s' n).
Proof.
  intros H. unfold outermost. rewrite (m_init _ _ H). destruct (s_init s); [|reflexivity]. rewrite (m_fn _ _ (m_b _ _ H)). apply orel_same. intros [b|]; [|reflexivity]. eapply orel_bind; [apply x_get, (m_b _ _ H)|]. intros ib ? ->. reflexivity.
Qed.
Lemma x_next n : forall maps, next_export e' maps n = next_export e maps n.
Proof. induction maps as [|m r IH]; [reflexivity|]. cbn [next_export]. change (e_vdso e' m) with (e_vdso e m). destruct (lookup_exported_symbol _ _ _) as [[a|]|]; cbn [bind]; auto. Qed.
Definition move_dlres (x : dlres) : dlres := match x with DReturn a => DReturn (w a) | DExit => DExit end.
Lemma x_dlsym d s s' k n : MS s s' -> w 0 = 0 -> (forall k n, w (dw_dlsym d k n) = dw_dlsym d k n) -> orel (fun x y => y = move_dlres x) (dlsym_wrapper e d s k n) (dlsym_wrapper e' d s' k n).
Proof.
  intros H W0 WD. unfold dlsym_wrapper. change (e_h_dlopen e') with (h (e_h_dlopen e)). change (e_h_dlsym e') with (h (e_h_dlsym e)).
  eapply orel_bind; [apply x_wrappee_of; exact H|]. intros _ _ _. eapply orel_bind; [apply x_wrappee_of; exact H|]. intros _ _ _. rewrite (m_fn _ _ (m_b _ _ H)). apply orel_same. intros r. cbn zeta.
  change (e_phdrs e') with (e_phdrs e). rewrite (m_maps _ _ (m_p _ _ H)).
  assert (U : orel (fun x y => y = move_dlres x)
    (if k =? RTLD_NEXT then do c <- find_caller (e_phdrs e (p_maps (s_p s))) (p_maps (s_p s)) (dw_caller d);
       match c with None => Ok DExit | Some [] => Fault NullDeref | Some (_ :: after) => do lib <- next_export e after n; match lib with Some lib => Ok (DReturn (dw_dlsym d (dw_dlopen d (lm_name lib)) n)) | None => Ok (DReturn 0) end end
     else Ok (DReturn (dw_dlsym d k n)))
    (if k =? RTLD_NEXT then do c <- find_caller (e_phdrs e (p_maps (s_p s))) (p_maps (s_p s)) (dw_caller d);
       match c with None => Ok DExit | Some [] => Fault NullDeref | Some (_ :: after) => do lib <- next_export e' after n; match lib with Some lib => Ok (DReturn (dw_dlsym d (dw_dlopen d (lm_name lib)) n)) | None => Ok (DReturn 0) end end
     else Ok (DReturn (dw_dlsym d k n)))).
  { destruct (k =? RTLD_NEXT); [|cbn; rewrite WD; reflexivity]. apply orel_same. intros [[|m after]|]; try reflexivity. rewrite x_next. apply orel_same. intros [lib|]; cbn; [rewrite WD|rewrite W0]; reflexivity. }
  destruct r as [b|]; [|exact U]. eapply orel_bind; [apply x_get, (m_b _ _ H)|]. intros ib ? ->. cbn [mi ib_user move_bind ub_handle ub_wrapper]. rewrite (m_handles _ _ (m_b _ _ H)).
  destruct (b_handles (s_b s) _) as [i|]; [|reflexivity]. eapply orel_bind; [apply x_get, (m_b _ _ H)|]. intros hb ? ->. cbn [mi ib_wrappee].
  assert (V : (wptr_value e' i (move_ptr w (ib_wrappee hb)) =? dw_dlsym d k n) = (wptr_value e i (ib_wrappee hb) =? dw_dlsym d k n)).
  { destruct (ib_wrappee hb) as [|a]; [reflexivity|]. cbn [wptr_value move_ptr]. rewrite <- (WD k n) at 1. apply w_eq. }
  rewrite V. destruct (_ || _); [reflexivity|exact U].
Qed.
End Move.
