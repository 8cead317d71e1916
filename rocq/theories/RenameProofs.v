(** GOTCHA commutes with renaming tools and rescaling priorities. *)
From Verif Require Import Base ListFacts HashModel HashProofs ElfModel ToolModel CoreModel SpecRename HashTrace.

Definition omap {A B} (g : A -> B) (o : outcome A) : outcome B := match o with Ok x => Ok (g x) | Fault k => Fault k end.

Section Rename.
Context (r : cstr -> cstr) (f : Z -> Z) (RN : renaming r) (RS : rescaling f).

Lemma f_lt v w : (f v <? f w) = (v <? w).
Proof.
  destruct (Z.ltb_spec v w) as [H|H]; [apply Z.ltb_lt, (rs_order _ RS), H|]. apply Z.ltb_ge.
  destruct (Z.eq_dec v w) as [->|N]; [lia|]. apply Z.lt_le_incl, (rs_order _ RS). lia.
Qed.
Lemma f_eq v w : (f v =? f w) = (v =? w).
Proof. destruct (Z.eqb_spec v w) as [->|N]; [apply Z.eqb_refl|]. apply Z.eqb_neq. intros H. pose proof (f_lt v w) as A. pose proof (f_lt w v) as B. rewrite H, Z.ltb_irrefl in A, B. symmetry in A, B. apply Z.ltb_ge in A, B. lia. Qed.
Lemma f_ge v w : (f v >=? f w) = (v >=? w).
Proof. rewrite !Z.geb_leb, !Z.leb_antisym, f_lt. reflexivity. Qed.
Lemma f_unset v : (f v =? UNSET_PRIORITY) = (v =? UNSET_PRIORITY).
Proof. unfold UNSET_PRIORITY. rewrite <- (rs_default _ RS) at 1. apply f_eq. Qed.
Lemma r_cmp s t : (libc_strcmp (r s) (r t) =? 0) = (libc_strcmp s t =? 0).
Proof.
  destruct (Z.eqb_spec (libc_strcmp s t) 0) as [H|H].
  - apply libc_strcmp_eq0 in H. subst t. apply Z.eqb_eq, libc_strcmp_eq0. reflexivity.
  - apply Z.eqb_neq. intros K. apply H. apply libc_strcmp_eq0 in K. apply libc_strcmp_eq0, (rn_inj _ RN), K.
Qed.
Lemma r_gotcha : r n_gotcha = n_gotcha.
Proof. apply (rn_own _ RN). Qed.
Lemma r_unspec : r n_unspecified = n_unspecified.
Proof. apply (rn_none _ RN). Qed.

Definition rt (t : tool) : tool := mkTool (r (t_name t)) (t_binding t) (t_next t) (f (t_prio t)) (t_children t) (t_parent t).
Definition rts (ts : tstate) : tstate := mkTS (map rt (ts_heap ts)) (ts_head ts).
Definition rbs (bs : bstate) : bstate := set_btools (rts (b_tools bs)) bs.
Definition rst (st : state) : state := set_b (rbs (s_b st)) st.

Lemma deref_map h i : deref (map rt h) i = omap rt (deref h i).
Proof. unfold deref. rewrite nth_error_map. destruct (nth_error h i); reflexivity. Qed.
Lemma upd_map h i g g' : (forall t, rt (g t) = g' (rt t)) -> upd (map rt h) i g' = map rt (upd h i g).
Proof. intros H. revert i. induction h as [|t h IH]; intros [|i]; cbn [map upd]; try reflexivity; [rewrite H; reflexivity|rewrite IH; reflexivity]. Qed.

Definition equal0 h i j : outcome bool := omap (fun c => c =? 0) (tool_equal h i j).
Lemma r_equal0 h i j : equal0 (map rt h) i j = equal0 h i j.
Proof.
  unfold equal0, tool_equal. rewrite !deref_map. destruct (deref h i) as [a|]; [|reflexivity]. cbn [bind omap]. destruct (deref h j) as [b|]; [|reflexivity]. cbn [bind omap rt t_name].
  rewrite r_cmp. reflexivity.
Qed.
Lemma use_equal0 {B} h i j (k : bool -> outcome B) : bind (tool_equal h i j) (fun c => k (c =? 0)) = bind (equal0 h i j) k.
Proof. unfold equal0. destruct (tool_equal h i j); reflexivity. Qed.

Lemma r_remove_walk tgt h : forall fuel cur, remove_walk fuel (map rt h) cur tgt = remove_walk fuel h cur tgt.
Proof.
  induction fuel as [|n IH]; intros cur; [reflexivity|]. cbn [remove_walk]. rewrite deref_map. destruct (deref h cur) as [c|]; [|reflexivity]. cbn [bind omap rt t_next].
  destruct (t_next c) as [nx|]; [|reflexivity].
  rewrite (use_equal0 (map rt h) nx tgt (fun b => if negb b then remove_walk n (map rt h) nx tgt else Ok cur)), (use_equal0 h nx tgt (fun b => if negb b then remove_walk n h nx tgt else Ok cur)), r_equal0, IH. reflexivity.
Qed.
Lemma r_remove ts tgt : remove_tool_from_list (rts ts) tgt = omap rts (remove_tool_from_list ts tgt).
Proof.
  unfold remove_tool_from_list. cbn [rts ts_head ts_heap]. destruct (ts_head ts) as [hd|] eqn:Hd; [|cbn [omap]; unfold rts; rewrite Hd; reflexivity].
  rewrite map_length.
  match goal with |- bind _ (fun c => if c =? 0 then ?x else ?y) = omap _ (bind _ (fun c' => if c' =? 0 then ?x' else ?y')) =>
    rewrite (use_equal0 (map rt (ts_heap ts)) hd tgt (fun b => if b then x else y)), (use_equal0 (ts_heap ts) hd tgt (fun b => if b then x' else y')) end.
  rewrite r_equal0. destruct (equal0 (ts_heap ts) hd tgt) as [b|]; [|reflexivity]. cbn [bind]. destruct b.
  - rewrite deref_map. destruct (deref (ts_heap ts) hd); reflexivity.
  - rewrite r_remove_walk. destruct (remove_walk _ _ hd tgt) as [cur|]; [|reflexivity]. cbn [bind]. rewrite deref_map. destruct (deref (ts_heap ts) cur) as [c|]; [|reflexivity]. cbn [bind omap rt t_next].
    destruct (t_next c) as [nx|]; [|reflexivity].
    match goal with |- bind _ (fun c => if c =? 0 then ?x else ?y) = omap _ (bind _ (fun c' => if c' =? 0 then ?x' else ?y')) =>
      rewrite (use_equal0 (map rt (ts_heap ts)) nx tgt (fun b => if b then x else y)), (use_equal0 (ts_heap ts) nx tgt (fun b => if b then x' else y')) end.
    rewrite r_equal0. destruct (equal0 (ts_heap ts) nx tgt) as [b|]; [|reflexivity]. cbn [bind]. destruct b.
    + rewrite deref_map. destruct (deref (ts_heap ts) tgt) as [t|]; [|reflexivity]. cbn [bind omap rt t_next]. unfold rts. cbn [ts_heap ts_head].
      rewrite (upd_map (ts_heap ts) cur (set_tnext (t_next t)) (set_tnext (t_next t))); reflexivity.
    + cbn [omap]. unfold rts. rewrite Hd. reflexivity.
Qed.
Lemma r_reorder_walk p h : forall fuel cur, reorder_walk fuel (map rt h) cur (f p) = reorder_walk fuel h cur p.
Proof.
  induction fuel as [|n IH]; intros cur; [reflexivity|]. cbn [reorder_walk]. rewrite deref_map. destruct (deref h cur) as [c|]; [|reflexivity]. cbn [bind omap rt t_next].
  destruct (t_next c) as [nx|]; [|reflexivity]. rewrite deref_map. destruct (deref h nx) as [x|]; [|reflexivity]. cbn [bind omap rt t_prio]. rewrite f_lt, IH. reflexivity.
Qed.
Lemma r_reorder ts i : reorder_tool (rts ts) i = omap rts (reorder_tool ts i).
Proof.
  unfold reorder_tool. cbn [rts ts_head ts_heap]. rewrite deref_map. destruct (deref (ts_heap ts) i) as [t|]; [|reflexivity]. cbn [bind omap rt t_prio].
  assert (H : forall v, upd (map rt (ts_heap ts)) i (set_tnext v) = map rt (upd (ts_heap ts) i (set_tnext v))) by (intros v; apply upd_map; reflexivity).
  destruct (ts_head ts) as [hd|]; [|rewrite H; reflexivity]. rewrite deref_map. destruct (deref (ts_heap ts) hd) as [u|]; [|reflexivity]. cbn [bind omap rt t_prio]. rewrite f_ge.
  destruct (t_prio u >=? t_prio t); [rewrite H; reflexivity|]. rewrite map_length, r_reorder_walk. destruct (reorder_walk _ _ hd _) as [cur|]; [|reflexivity]. cbn [bind].
  rewrite deref_map. destruct (deref (ts_heap ts) cur) as [c|]; [|reflexivity]. cbn [bind omap rt t_next]. rewrite H. unfold rts. cbn [ts_heap ts_head].
  rewrite (upd_map _ cur (set_tnext (Some i)) (set_tnext (Some i))); reflexivity.
Qed.
Lemma r_create ps ts n : create_tool ps (rts ts) (r n) = omap (fun x => (rts (fst x), snd x)) (create_tool ps ts n).
Proof.
  unfold create_tool. cbn [rts ts_heap ts_head]. rewrite map_length. destruct (create_hashtable ps 24 strhash libc_strcmp) as [ch|]; [|reflexivity]. cbn [bind].
  change (mkTS (map rt (ts_heap ts) ++ [mkTool (r n) None None default_priority ch None]) (ts_head ts)) with (mkTS (map rt (ts_heap ts) ++ [mkTool (r n) None None (-1) ch None]) (ts_head ts)).
  rewrite <- (rs_default _ RS) at 1.
  change (map rt (ts_heap ts) ++ [mkTool (r n) None None (f (-1)) ch None]) with (map rt (ts_heap ts) ++ map rt [mkTool n None None (-1) ch None]). rewrite <- map_app.
  change (mkTS (map rt (ts_heap ts ++ [mkTool n None None (-1) ch None])) (ts_head ts)) with (rts (mkTS (ts_heap ts ++ [mkTool n None None (-1) ch None]) (ts_head ts))).
  rewrite r_reorder. change default_priority with (-1). destruct (reorder_tool _ _); reflexivity.
Qed.
Lemma r_get_tool ts n : get_tool (rts ts) (r n) = get_tool ts n.
Proof.
  unfold get_tool. cbn [rts ts_heap ts_head]. rewrite map_length. generalize (length (ts_heap ts)) (ts_head ts). generalize (ts_heap ts). intros h k. induction k as [|k IH]; intros [i|]; try reflexivity.
  cbn [get_tool_loop]. rewrite deref_map. destruct (deref h i) as [t|]; [|reflexivity]. cbn [bind omap rt t_name t_next]. rewrite r_cmp, IH. reflexivity.
Qed.
Lemma r_get_create ps ts n : get_or_create_tool ps (rts ts) (r n) = omap (fun x => (rts (fst x), snd x)) (get_or_create_tool ps ts n).
Proof. unfold get_or_create_tool. rewrite r_get_tool. destruct (get_tool ts n) as [[i|]|]; cbn [bind omap fst snd]; try reflexivity. apply r_create. Qed.
Lemma r_priority ts i : get_priority (rts ts) i = omap f (get_priority ts i).
Proof. unfold get_priority. cbn [rts ts_heap]. rewrite deref_map. destruct (deref (ts_heap ts) i); reflexivity. Qed.
Lemma r_config h : forall fuel t, config_loop fuel (map rt h) t (-1) = omap f (config_loop fuel h t (-1)).
Proof.
  induction fuel as [|k IH]; intros [i|]; cbn [config_loop]; try (cbn [omap]; rewrite (rs_default _ RS); reflexivity); try reflexivity.
  rewrite deref_map. destruct (deref h i) as [t|]; [|reflexivity]. cbn [bind omap rt t_prio t_parent]. rewrite f_unset, IH. destruct (negb _); reflexivity.
Qed.
Lemma r_config_value ts n : get_configuration_value (rts ts) (r n) = omap (fun x => (fst x, option_map f (snd x))) (get_configuration_value ts n).
Proof.
  unfold get_configuration_value. rewrite r_get_tool. destruct (get_tool ts n) as [[i|]|]; cbn [bind omap]; try reflexivity. cbn [rts ts_heap]. rewrite map_length. change default_priority with (-1).
  rewrite r_config. destruct (config_loop _ _ _ _); reflexivity.
Qed.
Lemma r_set_priority ps ts n v : set_priority_int ps (rts ts) (r n) (f v) = omap rts (set_priority_int ps ts n v).
Proof.
  unfold set_priority_int. rewrite r_get_create. destruct (get_or_create_tool ps ts n) as [[ts1 i]|]; [|reflexivity]. cbn [bind omap fst snd].
  cbn [rts ts_heap ts_head]. rewrite (upd_map _ i (set_tprio v) (set_tprio (f v))) by reflexivity.
  change (mkTS (map rt (upd (ts_heap ts1) i (set_tprio v))) (ts_head ts1)) with (rts (mkTS (upd (ts_heap ts1) i (set_tprio v)) (ts_head ts1))).
  rewrite r_get_create. destruct (get_or_create_tool ps _ n) as [[ts2 j]|]; [|reflexivity]. cbn [bind omap fst snd]. rewrite r_remove. destruct (remove_tool_from_list ts2 j) as [ts3|]; [|reflexivity]. cbn [bind omap]. apply r_reorder.
Qed.

(** *** bindings *)
Lemma r_wrappee bs h v : set_wrappee (rbs bs) h v = omap rbs (set_wrappee bs h v).
Proof. unfold set_wrappee. cbn [rbs set_btools b_handles]. destruct (b_handles bs h); reflexivity. Qed.
Lemma r_head bs b h : insert_at_head (rbs bs) b h = omap rbs (insert_at_head bs b h).
Proof.
  unfold insert_at_head. cbn [rbs set_btools set_ib b_ib].
  set (bs1 := set_ib (upd (b_ib bs) b (set_inext (Some h))) bs).
  change (set_ib (upd (b_ib bs) b (set_inext (Some h))) (set_btools (rts (b_tools bs)) bs)) with (rbs bs1).
  destruct (deref _ b) as [ib|]; [|reflexivity]. cbn [bind]. destruct (deref _ h) as [hb|]; [|reflexivity]. cbn [bind].
  match goal with |- context [set_wrappee ?x] => change x with (rbs bs1) end.
  rewrite r_wrappee. match goal with |- _ = omap rbs (bind (set_wrappee ?x ?y ?z) _) => change x with bs1 end.
  destruct (set_wrappee bs1 _ _) as [bs2|]; [|reflexivity]. cbn [bind omap]. cbn [rbs set_btools b_fn].
  destruct (removefrom_hashtable _ _) as [[t x]|]; [|reflexivity]. cbn [bind]. destruct (addto_hashtable _ _ _); reflexivity.
Qed.
Lemma r_after bs b p : insert_after_pos (rbs bs) b p = omap rbs (insert_after_pos bs b p).
Proof.
  unfold insert_after_pos. change (b_ib (rbs bs)) with (b_ib bs). destruct (deref _ b) as [ib|]; [|reflexivity]. cbn [bind]. destruct (deref _ p) as [pb|]; [|reflexivity]. cbn [bind].
  rewrite r_wrappee. destruct (set_wrappee bs _ _) as [bs1|]; [|reflexivity]. cbn [bind omap].
  rewrite r_wrappee. destruct (set_wrappee bs1 _ _) as [bs2|]; [|reflexivity]. cbn [bind omap]. change (b_ib (rbs bs2)) with (b_ib bs2).
  destruct (deref _ p); reflexivity.
Qed.
Lemma r_bprio bs b : binding_priority (rbs bs) b = omap f (binding_priority bs b).
Proof.
  unfold binding_priority. change (b_ib (rbs bs)) with (b_ib bs). change (b_tables (rbs bs)) with (b_tables bs). destruct (deref _ b) as [ib|]; [|reflexivity]. cbn [bind].
  destruct (deref _ _) as [bt|]; [|reflexivity]. cbn [bind]. apply r_priority.
Qed.
Lemma r_order bs w p : forall fuel cur, order_loop fuel (rbs bs) w (f p) cur = order_loop fuel bs w p cur.
Proof.
  induction fuel as [|n IH]; intros cur; [reflexivity|]. cbn [order_loop]. change (b_ib (rbs bs)) with (b_ib bs). destruct (deref _ cur) as [c|]; [|reflexivity]. cbn [bind].
  destruct (ib_next c) as [nx|]; [|reflexivity]. rewrite r_bprio. destruct (binding_priority bs nx) as [q|]; [|reflexivity]. cbn [bind omap]. rewrite f_lt, IH. reflexivity.
Qed.
Definition on1 {A} (x : bstate * A) : bstate * A := (rbs (fst x), snd x).
Definition on {A} (x : state * A) : state * A := (rst (fst x), snd x).
Lemma r_place bs b n w p : place_binding (rbs bs) b n w (f p) = omap on1 (place_binding bs b n w p).
Proof.
  unfold place_binding. change (b_fn (rbs bs)) with (b_fn bs). change (b_ib (rbs bs)) with (b_ib bs). destruct (lookup_hashtable _ n) as [[h|]|]; cbn [bind]; [| |reflexivity].
  - rewrite r_bprio. destruct (binding_priority bs h) as [q|]; [|reflexivity]. cbn [bind omap]. rewrite f_lt. destruct (q <? p).
    + rewrite r_head. destruct (insert_at_head bs b h); reflexivity.
    + rewrite r_order. destruct (order_loop _ bs w p h) as [[pos|]|]; cbn [bind]; try reflexivity. rewrite r_after. destruct (insert_after_pos bs b pos); reflexivity.
  - destruct (addto_hashtable _ _ _); reflexivity.
Qed.

(** the recursive calls commute *)
Definition good_rec (rec : wrap_fun) : Prop := forall st ubs t, rec (rst st) ubs (option_map r t) = omap on (rec st ubs t).
Lemma rec_gotcha rec st ubs : good_rec rec -> rec (rst st) ubs (Some n_gotcha) = omap on (rec st ubs (Some n_gotcha)).
Proof. intros G. rewrite <- (G st ubs (Some n_gotcha)). cbn [option_map]. rewrite r_gotcha. reflexivity. Qed.
Lemma r_main e rec st n : good_rec rec -> wrap_main e rec (rst st) n = omap rst (wrap_main e rec st n).
Proof.
  intros G. unfold wrap_main. change (s_main (rst st)) with (s_main st). destruct (_ && _); [|reflexivity].
  set (st1 := mkSt (s_init st) true (s_b st) (s_l st) (s_p st)). change (mkSt (s_init (rst st)) true (s_b (rst st)) (s_l (rst st)) (s_p (rst st))) with (rst st1).
  rewrite rec_gotcha by auto. destruct (rec st1 _ _) as [[st2 c]|]; [|reflexivity]. cbn [bind omap on fst snd]. rewrite rec_gotcha by auto. destruct (rec st2 _ _) as [[st3 c']|]; reflexivity.
Qed.
Lemma r_rwo e rec st b : good_rec rec -> rewrite_wrapper_orders e rec (rst st) b = omap on (rewrite_wrapper_orders e rec st b).
Proof.
  intros G. unfold rewrite_wrapper_orders. change (s_b (rst st)) with (rbs (s_b st)). change (b_ib (rbs (s_b st))) with (b_ib (s_b st)). destruct (deref _ b) as [ib|]; [|reflexivity]. cbn [bind].
  rewrite r_bprio. destruct (binding_priority (s_b st) b) as [p|]; [|reflexivity]. cbn [bind omap]. rewrite r_main by auto. destruct (wrap_main e rec st _) as [st1|]; [|reflexivity]. cbn [bind omap].
  change (s_b (rst st1)) with (rbs (s_b st1)). rewrite r_place. destruct (place_binding (s_b st1) b _ _ p) as [[bs x]|]; reflexivity.
Qed.
Lemma r_prepare e st b : prepare_symbol e (rst st) b = omap on (prepare_symbol e st b).
Proof.
  unfold prepare_symbol. change (b_ib (s_b (rst st))) with (b_ib (s_b st)). destruct (deref _ b) as [ib|]; [|reflexivity]. cbn [bind].
  change (p_maps (s_p (rst st))) with (p_maps (s_p st)). change (s_l (rst st)) with (s_l st). destruct (prepare_loop e _ _ _) as [[l [a|]]|]; cbn [bind]; try reflexivity.
  change (s_b (set_l l (rst st))) with (rbs (s_b st)). change (s_b (set_l l st)) with (s_b st). rewrite r_wrappee. destruct (set_wrappee (s_b st) _ _); reflexivity.
Qed.
Lemma r_one e rec na b sp : good_rec rec -> wrap_one e rec na b (on sp) = omap on (wrap_one e rec na b sp).
Proof.
  intros G. destruct sp as [st pr]. unfold on, wrap_one. cbn [fst snd]. rewrite r_rwo by auto. destruct (rewrite_wrapper_orders e rec st b) as [[st1 x]|]; [|reflexivity]. cbn [bind omap on fst snd].
  change (b_ib (s_b (rst st1))) with (b_ib (s_b st1)). destruct (deref _ b) as [ib|]; [|reflexivity]. cbn [bind].
  assert (K : forall sp, (if need_binding x then
    do t <- (match pr_new (snd sp) with None => create_hashtable (e_ps e) (na * 2) strhash libc_strcmp | Some t => Ok t end);
    do t <- addto_hashtable t (ub_name (ib_user ib)) b; Ok (fst (on sp), mkPr (pr_not_found (snd sp)) (Some t)) else Ok (on sp)) =
    omap on (if need_binding x then
    do t <- (match pr_new (snd sp) with None => create_hashtable (e_ps e) (na * 2) strhash libc_strcmp | Some t => Ok t end);
    do t <- addto_hashtable t (ub_name (ib_user ib)) b; Ok (fst sp, mkPr (pr_not_found (snd sp)) (Some t)) else Ok sp)).
  { intros [st2 pr2]. cbn [fst snd on]. destruct (need_binding x); [|reflexivity]. destruct (match pr_new pr2 with None => _ | Some t => Ok t end) as [t|]; [|reflexivity]. cbn [bind]. destruct (addto_hashtable t _ b); reflexivity. }
  destruct (need_lookup x); [|apply (K (st1, pr))]. rewrite r_prepare. destruct (prepare_symbol e st1 b) as [[st2 found]|]; [|reflexivity]. cbn [bind omap on fst snd].
  destruct found; [apply (K (st2, pr))|]. change (b_nf (s_b (rst st2))) with (b_nf (s_b st2)). destruct (addto_hashtable _ _ _) as [t|]; [|reflexivity]. cbn [bind].
  apply (K (set_b (set_nf t (s_b st2)) st2, mkPr (pr_not_found pr + 1) (pr_new pr))).
Qed.
Lemma r_loop e rec na : good_rec rec -> forall n b sp, wrap_loop e rec na n b (on sp) = omap on (wrap_loop e rec na n b sp).
Proof. intros G. induction n as [|n IH]; intros b sp; cbn [wrap_loop]; [reflexivity|]. rewrite r_one by auto. destruct (wrap_one e rec na b sp) as [sp1|]; [|reflexivity]. cbn [bind omap]. apply IH. Qed.
Lemma r_add e bs i ubs : add_binding_to_tool e (rbs bs) i ubs = omap on1 (add_binding_to_tool e bs i ubs).
Proof.
  unfold add_binding_to_tool. change (b_tables (rbs bs)) with (b_tables bs). change (b_ib (rbs bs)) with (b_ib bs). change (b_handles (rbs bs)) with (b_handles bs).
  destruct (fill_bindings _ _ _ _) as [ibs hs]. destruct (create_hashtable _ _ _ _) as [h|]; [|reflexivity]. cbn [bind]. destruct (fill_hash h ubs _) as [h'|]; [|reflexivity]. cbn [bind].
  change (b_tools (rbs bs)) with (rts (b_tools bs)). cbn [rts ts_heap ts_head]. rewrite deref_map. destruct (deref _ i) as [t|]; [|reflexivity]. cbn [bind omap rt t_binding].
  rewrite (upd_map _ i (set_tbinding (Some (length (b_tables bs)))) (set_tbinding (Some (length (b_tables bs))))) by reflexivity. reflexivity.
Qed.
Lemma r_gots e t st : update_all_library_gots e t (rst st) = omap rst (update_all_library_gots e t st).
Proof.
  unfold update_all_library_gots. change (b_ib (s_b (rst st))) with (b_ib (s_b st)). change (s_p (rst st)) with (s_p st). change (s_l (rst st)) with (s_l st). destruct (update_gots _ _ _ _ _) as [[l p]|]; reflexivity.
Qed.
Lemma r_wrap_tool e rec st ubs t : good_rec rec -> wrap_tool e rec (rst st) ubs (option_map r t) = omap on (wrap_tool e rec st ubs t).
Proof.
  intros G. unfold wrap_tool.
  assert (T : match option_map r t with Some n => n | None => n_unspecified end = r match t with Some n => n | None => n_unspecified end) by (destruct t; [reflexivity|symmetry; apply r_unspec]).
  rewrite T. set (tn := match t with Some n => n | None => n_unspecified end).
  set (st1 := set_b (set_handles (null_handles ubs (b_handles (s_b st))) (s_b st)) st).
  change (set_b (set_handles (null_handles ubs (b_handles (s_b (rst st)))) (s_b (rst st))) (rst st)) with (rst st1).
  change (b_tools (s_b (rst st1))) with (rts (b_tools (s_b st1))). rewrite r_get_create. destruct (get_or_create_tool _ _ tn) as [[ts i]|]; [|reflexivity]. cbn [bind omap fst snd].
  set (st2 := set_b (set_btools ts (s_b st1)) st1). change (set_b (set_btools (rts ts) (s_b (rst st1))) (rst st1)) with (rst st2).
  change (s_l (rst st2)) with (s_l st2). set (st3 := set_l (mkLS (l_table (s_l st2)) (l_heap (s_l st2)) (l_list (s_l st2)) (u32 (l_gen (s_l st2) + 1))) st2).
  change (set_l (mkLS (l_table (s_l st2)) (l_heap (s_l st2)) (l_list (s_l st2)) (u32 (l_gen (s_l st2) + 1))) (rst st2)) with (rst st3).
  change (s_b (rst st3)) with (rbs (s_b st3)). rewrite r_add. destruct (add_binding_to_tool e (s_b st3) i ubs) as [[bs tbl]|]; [|reflexivity]. cbn [bind omap on1 fst snd].
  change (b_tables (rbs bs)) with (b_tables bs). destruct (deref _ tbl) as [bt|]; [|reflexivity]. cbn [bind].
  change (set_b (rbs bs) (rst st3), mkPr 0 None) with (on (set_b bs st3, mkPr 0 None)). rewrite r_loop by auto.
  destruct (wrap_loop e rec _ _ _ _) as [[st4 pr]|]; [|reflexivity]. cbn [bind omap on fst snd]. destruct (pr_new pr) as [tb|]; [|reflexivity]. rewrite r_gots. destruct (update_all_library_gots e tb st4); reflexivity.
Qed.
Lemma r_init e rec st : good_rec rec -> gotcha_init e rec (rst st) = omap rst (gotcha_init e rec st).
Proof.
  intros G. unfold gotcha_init. change (s_init (rst st)) with (s_init st). destruct (s_init st); [reflexivity|].
  set (st1 := mkSt true (s_main st) (s_b st) (s_l st) (s_p st)). change (mkSt true (s_main (rst st)) (s_b (rst st)) (s_l (rst st)) (s_p (rst st))) with (rst st1).
  assert (S : setup_hash_tables e (rst st1) = omap rst (setup_hash_tables e st1)).
  { unfold setup_hash_tables. destruct (create_hashtable _ _ link_map_hash _) as [lt|]; [|reflexivity]. cbn [bind]. destruct (create_hashtable _ 4096 _ _) as [ft|]; [|reflexivity]. cbn [bind]. destruct (create_hashtable _ 128 strhash _); reflexivity. }
  rewrite S. destruct (setup_hash_tables e st1) as [st2|]; [|reflexivity]. cbn [bind omap]. rewrite rec_gotcha by auto. destruct (rec st2 _ _) as [[st3 c]|]; reflexivity.
Qed.
Lemma wrap_n_good e : forall n, good_rec (wrap_n e n).
Proof.
  induction n as [|n IH]; intros st ubs t; [reflexivity|]. cbn [wrap_n]. unfold wrap_body. rewrite r_init by exact IH. destruct (gotcha_init e (wrap_n e n) st) as [st1|]; [|reflexivity]. cbn [bind omap]. apply r_wrap_tool, IH.
Qed.
Lemma r_per e k x st : per_binding e k x (rst st) = omap on (per_binding e k x st).
Proof.
  unfold per_binding. destruct k as [k|]; [|reflexivity]. destruct x as [b|]; [|reflexivity]. change (b_ib (s_b (rst st))) with (b_ib (s_b st)). destruct (innermost _ _ b) as [b'|]; [|reflexivity]. cbn [bind].
  rewrite r_prepare. destruct (prepare_symbol e st b') as [[st1 found]|]; [|reflexivity]. cbn [bind omap on fst snd]. destruct found; [|reflexivity].
  change (b_nf (s_b (rst st1))) with (b_nf (s_b st1)). destruct (removefrom_hashtable _ _) as [[t y]|]; reflexivity.
Qed.
Lemma r_finish e st : dlopen_finish e (rst st) = omap rst (dlopen_finish e st).
Proof.
  unfold dlopen_finish, foreach_hash_entry. change (b_nf (s_b (rst st))) with (b_nf (s_b st)).
  assert (H : forall n i st, foreach_loop n (fun s => b_nf (s_b s)) (per_binding e) i (rst st) = omap on (foreach_loop n (fun s => b_nf (s_b s)) (per_binding e) i st)).
  { induction n as [|n IH]; intros [i|] st0; try reflexivity. cbn [foreach_loop]. change (b_nf (s_b (rst st0))) with (b_nf (s_b st0)). destruct (nth_error _ i) as [x|]; [|reflexivity].
    rewrite r_per. destruct (per_binding e _ _ st0) as [[st1 c]|]; [|reflexivity]. cbn [bind omap on fst snd]. destruct (negb _); [reflexivity|].
    change (b_nf (s_b (rst st1))) with (b_nf (s_b st1)). destruct (nth_error _ i); [apply IH|reflexivity]. }
  rewrite H. destruct (foreach_loop _ _ _ _ st) as [[st1 c]|]; [|reflexivity]. cbn [bind omap on fst snd]. change (b_fn (s_b (rst st1))) with (b_fn (s_b st1)). apply r_gots.
Qed.

Definition onr (x : state * res) : state * res := (rst (fst x), rename_res f (snd x)).
Lemma r_step e st o : step e (rst st) (rename_op r f o) = omap onr (step e st o).
Proof.
  destruct o as [ubs t|t v|t|g|libs mm| |keep mm]; cbn [step rename_op]; try reflexivity.
  - unfold gotcha_wrap. rewrite wrap_n_good. destruct (wrap_n e 3 st ubs t) as [[st1 c]|]; reflexivity.
  - unfold gotcha_set_priority, api_init. rewrite r_init by apply wrap_n_good. destruct (gotcha_init e _ st) as [st1|]; [|reflexivity]. cbn [bind omap].
    change (b_tools (s_b (rst st1))) with (rts (b_tools (s_b st1))). rewrite r_set_priority. destruct (set_priority_int _ _ t v); reflexivity.
  - unfold gotcha_get_priority, api_init. rewrite r_init by apply wrap_n_good. destruct (gotcha_init e _ st) as [st1|]; [|reflexivity]. cbn [bind omap].
    change (b_tools (s_b (rst st1))) with (rts (b_tools (s_b st1))). rewrite r_config_value. destruct (get_configuration_value _ t) as [[c [v|]]|]; reflexivity.
  - change (s_init (rst st)) with (s_init st). destruct (s_init st); [|reflexivity]. rewrite r_finish. destruct (dlopen_finish e st); reflexivity.
Qed.
Lemma r_run e ops : forall st, run e (rst st) (map (rename_op r f) ops) = omap (fun x => (rst (fst x), map (rename_res f) (snd x))) (run e st ops).
Proof.
  induction ops as [|o l IH]; intros st; cbn [run map]; [reflexivity|]. rewrite r_step. destruct (step e st o) as [[st1 x]|]; [|reflexivity]. cbn [bind omap onr fst snd].
  rewrite IH. destruct (run e st1 l) as [[st2 xs]|]; reflexivity.
Qed.
Lemma rst_same st : same_but_tools st (rst st).
Proof. constructor; reflexivity. Qed.
End Rename.
