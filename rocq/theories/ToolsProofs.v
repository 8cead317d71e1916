(** GOTCHA depends on tools only through the order of their priorities when something is wrapped. *)
From Verif Require Import Base ListFacts HashModel HashProofs SpecHash ElfModel ToolModel CoreModel SpecCore SpecRun ToolProofs HashTrace CoreMaps CoreSpec CoreFacts CoreRel CoreWrap CoreApi CoreMicro SpecTools.

Definition orel {A B} (R : A -> B -> Prop) (x : outcome A) (y : outcome B) : Prop :=
  match x, y with Ok a, Ok b => R a b | Fault k, Fault k' => k = k' | _, _ => False end.
Lemma orel_bind {A B A' B'} (R : A -> B -> Prop) (R' : A' -> B' -> Prop) x y f g :
  orel R x y -> (forall a b, R a b -> orel R' (f a) (g b)) -> orel R' (bind x f) (bind y g).
Proof. intros H K. destruct x, y; cbn in *; auto; contradiction. Qed.
Lemma orel_same {A A' B'} (R' : A' -> B' -> Prop) (x : outcome A) f g : (forall a, orel R' (f a) (g a)) -> orel R' (bind x f) (bind x g).
Proof. intros K. destruct x; cbn; auto. Qed.
Lemma orel_refl {A} (x : outcome A) : orel eq x x.
Proof. destruct x; reflexivity. Qed.

Section Sim.
Context (e : env) (PS : 48 <= e_ps e) (ps : list (cstr * cstr)) (f f' : cstr -> Z).
Context (OWN : In (n_gotcha, n_gotcha) ps).
Context (AG : forall x x' y y', In (x, x') ps -> In (y, y') ps -> (f x <? f y) = (f' x' <? f' y')).

Definition owner (h h' : list tool) (b b' : btable) : Prop :=
  table_data b = table_data b' /\ exists t t', nth_error h (bt_tool b) = Some t /\ nth_error h' (bt_tool b') = Some t' /\ In (t_name t, t_name t') ps.
Record reg (ts : tstate) (g : cstr -> Z) : Prop := { rg_ok : exists l, tools_ok ts l; rg_prio : forall x, prio_of (tool_prios (ts_heap ts)) x = g x }.
Record R (b b' : bstate) : Prop := {
  r_all : b_all b = b_all b'; r_ib : b_ib b = b_ib b'; r_handles : b_handles b = b_handles b'; r_fn : b_fn b = b_fn b'; r_nf : b_nf b = b_nf b';
  r_reg : reg (b_tools b) f; r_reg' : reg (b_tools b') f';
  r_tab : Forall2 (owner (ts_heap (b_tools b)) (ts_heap (b_tools b'))) (b_tables b) (b_tables b') }.
Record RS (s s' : state) : Prop := { rs_init : s_init s = s_init s'; rs_main : s_main s = s_main s'; rs_b : R (s_b s) (s_b s'); rs_l : s_l s = s_l s'; rs_p : s_p s = s_p s' }.
Definition Rx {A} (x y : bstate * A) : Prop := R (fst x) (fst y) /\ snd x = snd y.
Definition RSx {A} (x y : state * A) : Prop := RS (fst x) (fst y) /\ snd x = snd y.

Ltac bs b b' H := let A := fresh "A" in let B := fresh "B" in let C := fresh "C" in let D := fresh "D" in let F := fresh "F" in
  destruct b as [T tb al ib hs fn nf], b' as [T' tb' al' ib' hs' fn' nf'], H as [A B C D F G G' TB]; cbn [b_all b_ib b_handles b_fn b_nf b_tools b_tables] in A, B, C, D, F, G, G', TB; subst al' ib' hs' fn' nf'.

Lemma x_wrappee b b' h v : R b b' -> orel R (set_wrappee b h v) (set_wrappee b' h v).
Proof. intros H. bs b b' H. unfold set_wrappee. cbn [b_handles]. destruct (hs h); [|reflexivity]. constructor; auto. Qed.
Lemma x_ib b b' v : R b b' -> R (set_ib v b) (set_ib v b').
Proof. intros H. bs b b' H. constructor; auto. Qed.
Lemma x_fn b b' v : R b b' -> R (set_fn v b) (set_fn v b').
Proof. intros H. bs b b' H. constructor; auto. Qed.
Lemma x_nf b b' v : R b b' -> R (set_nf v b) (set_nf v b').
Proof. intros H. bs b b' H. constructor; auto. Qed.
Lemma x_hs b b' v : R b b' -> R (set_handles v b) (set_handles v b').
Proof. intros H. bs b b' H. constructor; auto. Qed.
Lemma x_head b b' i h : R b b' -> orel R (insert_at_head b i h) (insert_at_head b' i h).
Proof.
  intros H. unfold insert_at_head. rewrite <- (r_ib _ _ H). pose proof (x_ib b b' (upd (b_ib b) i (set_inext (Some h))) H) as H1.
  cbn [b_ib set_ib]. apply orel_same. intros ib. apply orel_same. intros hb. eapply orel_bind; [apply x_wrappee; exact H1|]. intros b2 b2' H2. rewrite <- (r_fn _ _ H2).
  apply orel_same. intros [t x]. apply orel_same. intros t2. apply x_fn. exact H2.
Qed.
Lemma x_after b b' i p : R b b' -> orel R (insert_after_pos b i p) (insert_after_pos b' i p).
Proof.
  intros H. unfold insert_after_pos. rewrite <- (r_ib _ _ H). apply orel_same. intros ib. apply orel_same. intros pb. eapply orel_bind; [apply x_wrappee; exact H|]. intros b1 b1' H1.
  eapply orel_bind; [apply x_wrappee; exact H1|]. intros b2 b2' H2. rewrite <- (r_ib _ _ H2). apply orel_same. intros pb2. cbn [b_ib set_ib]. apply x_ib, x_ib, H2.
Qed.

(** priorities of bindings: of corresponding tools *)
Definition PR (p p' : Z) : Prop := exists x x', In (x, x') ps /\ p = f x /\ p' = f' x'.
Lemma PR_lt p p' q q' : PR p p' -> PR q q' -> (p <? q) = (p' <? q').
Proof. intros (x & x' & Hx & -> & ->) (y & y' & Hy & -> & ->). apply AG; assumption. Qed.
Lemma x_prio b b' i : R b b' -> orel PR (binding_priority b i) (binding_priority b' i).
Proof.
  intros H. unfold binding_priority. rewrite <- (r_ib _ _ H). apply orel_same. intros ib.
  assert (TB : orel (owner (ts_heap (b_tools b)) (ts_heap (b_tools b'))) (deref (b_tables b) (ib_table ib)) (deref (b_tables b') (ib_table ib))).
  { generalize (ib_table ib). generalize (r_tab _ _ H). intros F. unfold deref. induction F; intros [|n]; cbn; auto. }
  eapply orel_bind; [exact TB|]. intros bt bt' (_ & t & t' & Ht & Ht' & Hin). unfold get_priority. rewrite (deref_Ok _ _ _ Ht), (deref_Ok _ _ _ Ht'). cbn [bind orel].
  destruct (r_reg _ _ H) as [[l O] P], (r_reg' _ _ H) as [[l' O'] P']. exists (t_name t), (t_name t'). split; [exact Hin|]. rewrite <- P, <- P'.
  split; symmetry; eapply prio_of_tool; eauto using to_names.
Qed.
Lemma x_order b b' w p p' : R b b' -> PR p p' -> forall fuel cur, orel eq (order_loop fuel b w p cur) (order_loop fuel b' w p' cur).
Proof.
  intros H Hp. induction fuel as [|n IH]; intros cur; [reflexivity|]. cbn [order_loop]. rewrite <- (r_ib _ _ H). apply orel_same. intros c. destruct (ib_next c) as [nx|]; [|reflexivity].
  eapply orel_bind; [apply x_prio; exact H|]. intros q q' Hq. rewrite (PR_lt _ _ _ _ Hq Hp). destruct (q' <? p'); [reflexivity|]. destruct (_ =? w); [reflexivity|]. apply IH.
Qed.
Lemma x_place b b' i n w p p' : R b b' -> PR p p' -> orel Rx (place_binding b i n w p) (place_binding b' i n w p').
Proof.
  intros H Hp. unfold place_binding. rewrite <- (r_fn _ _ H), <- (r_ib _ _ H). apply orel_same. intros [h|].
  - eapply orel_bind; [apply x_prio; exact H|]. intros q q' Hq. rewrite (PR_lt _ _ _ _ Hq Hp). destruct (q' <? p').
    + eapply orel_bind; [apply x_head; exact H|]. intros b1 b1' H1. split; [exact H1|reflexivity].
    + eapply orel_bind; [apply x_order; eassumption|]. intros c c' <-. destruct c as [pos|]; [|split; [exact H|reflexivity]]. eapply orel_bind; [apply x_after; exact H|]. intros b1 b1' H1. split; [exact H1|reflexivity].
  - apply orel_same. intros t. split; [apply x_fn; exact H|reflexivity].
Qed.

(** states *)
Lemma s_set_b s s' b b' : RS s s' -> R b b' -> RS (set_b b s) (set_b b' s').
Proof. intros [A B C D E] H. constructor; auto. Qed.
Lemma s_set_l s s' l : RS s s' -> RS (set_l l s) (set_l l s').
Proof. intros [A B C D E]. constructor; auto. Qed.
Definition good (rec : wrap_fun) : Prop := forall s s' ubs t t', RS s s' -> In (tool_name t, tool_name t') ps -> orel RSx (rec s ubs t) (rec s' ubs t').
Lemma x_main rec s s' n : good rec -> RS s s' -> orel RS (wrap_main e rec s n) (wrap_main e rec s' n).
Proof.
  intros G [A B C D E]. unfold wrap_main. rewrite <- B. destruct (_ && _); [|constructor; auto].
  assert (H : RS (mkSt (s_init s) true (s_b s) (s_l s) (s_p s)) (mkSt (s_init s') true (s_b s') (s_l s') (s_p s'))) by (constructor; auto).
  eapply orel_bind; [apply G; [exact H|exact OWN]|]. intros [s1 c] [s1' c'] [H1 _]. eapply orel_bind; [apply G; [exact H1|exact OWN]|]. intros [s2 d] [s2' d'] [H2 _]. exact H2.
Qed.
Lemma x_rwo rec s s' b : good rec -> RS s s' -> orel RSx (rewrite_wrapper_orders e rec s b) (rewrite_wrapper_orders e rec s' b).
Proof.
  intros G H. unfold rewrite_wrapper_orders. rewrite <- (r_ib _ _ (rs_b _ _ H)). apply orel_same. intros ib. eapply orel_bind; [apply x_prio, (rs_b _ _ H)|]. intros p p' Hp.
  eapply orel_bind; [apply x_main; eassumption|]. intros s1 s1' H1. eapply orel_bind; [apply x_place; [apply (rs_b _ _ H1)|exact Hp]|]. intros [b1 x] [b1' x'] [H2 H3]. cbn [fst snd] in *. subst x'. split; [apply s_set_b; assumption|reflexivity].
Qed.
Lemma x_prepare s s' b : RS s s' -> orel RSx (prepare_symbol e s b) (prepare_symbol e s' b).
Proof.
  intros H. unfold prepare_symbol. rewrite <- (r_ib _ _ (rs_b _ _ H)), <- (rs_p _ _ H), <- (rs_l _ _ H). apply orel_same. intros ib. apply orel_same. intros [l [a|]].
  - cbn [s_b set_l]. eapply orel_bind; [apply x_wrappee, (rs_b _ _ H)|]. intros b1 b1' H1. split; [|reflexivity]. apply s_set_b; [apply s_set_l; exact H|exact H1].
  - split; [|reflexivity]. apply s_set_l. exact H.
Qed.
Lemma x_one rec na b sp sp' : good rec -> RSx sp sp' -> orel RSx (wrap_one e rec na b sp) (wrap_one e rec na b sp').
Proof.
  intros G H. destruct sp as [s pr], sp' as [s' pr']. destruct H as [H E]. cbn [fst snd] in *. subst pr'. unfold wrap_one.
  eapply orel_bind; [apply x_rwo; eassumption|]. intros [s1 x] [s1' x'] [H1 E1]. cbn [fst snd] in *. subst x'. rewrite <- (r_ib _ _ (rs_b _ _ H1)). apply orel_same. intros ib.
  eapply (orel_bind RSx).
  - destruct (need_lookup x); [|split; [exact H1|reflexivity]]. eapply orel_bind; [apply x_prepare; exact H1|]. intros [s2 fd] [s2' fd'] [H2 E2]. cbn [fst snd] in *. subst fd'. destruct fd; [split; [exact H2|reflexivity]|].
    rewrite <- (r_nf _ _ (rs_b _ _ H2)). apply orel_same. intros t. split; [|reflexivity]. apply s_set_b; [exact H2|]. apply x_nf, (rs_b _ _ H2).
  - intros [s2 p2] [s2' p2'] [H2 E2]. cbn [fst snd] in *. subst p2'. destruct (need_binding x); [|split; [exact H2|reflexivity]]. apply orel_same. intros t. apply orel_same. intros t2. split; [exact H2|reflexivity].
Qed.
Lemma x_loop rec na : good rec -> forall n b sp sp', RSx sp sp' -> orel RSx (wrap_loop e rec na n b sp) (wrap_loop e rec na n b sp').
Proof. intros G. induction n as [|n IH]; intros b sp sp' H; cbn [wrap_loop]; [exact H|]. eapply orel_bind; [apply x_one; eassumption|]. intros a a' Ha. apply IH. exact Ha. Qed.
Lemma x_gots t s s' : RS s s' -> orel RS (update_all_library_gots e t s) (update_all_library_gots e t s').
Proof.
  intros H. unfold update_all_library_gots. rewrite <- (r_ib _ _ (rs_b _ _ H)), <- (rs_p _ _ H), <- (rs_l _ _ H). apply orel_same. intros [l p]. destruct H as [A B C D E]. constructor; auto.
Qed.

(** tools *)
Lemma reg_create ts g n : reg ts g -> exists ts' i t, get_or_create_tool (e_ps e) ts n = Ok (ts', i) /\ reg ts' g /\ nth_error (ts_heap ts') i = Some t /\ t_name t = n /\
  (forall j x, nth_error (ts_heap ts) j = Some x -> exists x', nth_error (ts_heap ts') j = Some x' /\ t_name x' = t_name x).
Proof.
  intros [[l O] P]. destruct (get_or_create_prios (e_ps e) ts l n PS O) as (ts' & l' & i & t & A1 & A2 & A3 & A4 & A5 & A6). exists ts', i, t. split; [exact A1|]. split; [|split; [exact A3|split; [exact A4|]]].
  - constructor; [exists l'; exact A2|]. intros x. rewrite A5, prio_use. apply P.
  - intros j x Hx. destruct (A6 j x Hx) as (x' & Hx' & I). exists x'. split; [exact Hx'|]. unfold tinfo in I. congruence.
Qed.
Lemma owners_ext h h' h1 h1' tb tb' : (forall j x, nth_error h j = Some x -> exists x', nth_error h1 j = Some x' /\ t_name x' = t_name x) ->
  (forall j x, nth_error h' j = Some x -> exists x', nth_error h1' j = Some x' /\ t_name x' = t_name x) -> Forall2 (owner h h') tb tb' -> Forall2 (owner h1 h1') tb tb'.
Proof.
  intros X X' F. induction F as [|b b' l l' (D & t & t' & Ht & Ht' & Hin) F IH]; constructor; [|exact IH]. split; [exact D|]. destruct (X _ _ Ht) as (u & Hu & E). destruct (X' _ _ Ht') as (u' & Hu' & E'). exists u, u'. rewrite E, E'. auto.
Qed.
Lemma upd_names h i v j x : nth_error h j = Some x -> exists x', nth_error (upd h i (set_tbinding v)) j = Some x' /\ t_name x' = t_name x.
Proof. intros H. rewrite nth_error_upd, H. destruct (Nat.eqb i j); eexists; split; reflexivity. Qed.
Lemma reg_binding ts g i v : reg ts g -> reg (mkTS (upd (ts_heap ts) i (set_tbinding v)) (ts_head ts)) g.
Proof.
  intros [[l O] P]. constructor; [exists l; apply tools_ok_binding; exact O|]. intros x. rewrite <- P. f_equal. cbn [ts_heap]. unfold tool_prios. apply upd_map. reflexivity.
Qed.
Lemma x_add b b' ti ti' t t' ubs : R b b' -> nth_error (ts_heap (b_tools b)) ti = Some t -> nth_error (ts_heap (b_tools b')) ti' = Some t' -> In (t_name t, t_name t') ps ->
  orel Rx (add_binding_to_tool e b ti ubs) (add_binding_to_tool e b' ti' ubs).
Proof.
  intros H Ht Ht' Hin. pose proof (Forall2_length _ _ _ (r_tab _ _ H)) as L. bs b b' H. cbn [b_tools b_tables] in *. unfold add_binding_to_tool. cbn [b_tables b_ib b_handles b_tools b_fn b_nf b_all]. rewrite <- L.
  destruct (fill_bindings _ ubs ib hs) as [ibs hs2]. apply orel_same. intros h1. apply orel_same. intros h2. rewrite (deref_Ok _ _ _ Ht), (deref_Ok _ _ _ Ht'). cbn [bind]. split; [|reflexivity]. cbn [fst].
  constructor; cbn [b_all b_ib b_handles b_fn b_nf b_tools b_tables ts_heap]; auto using reg_binding. apply Forall2_app; [eapply owners_ext; [| |exact TB]; intros; apply upd_names; assumption|].
  constructor; [|constructor]. split; [reflexivity|]. destruct (upd_names (ts_heap T) ti (Some (length tb)) ti t Ht) as (u & Hu & N). destruct (upd_names (ts_heap T') ti' (Some (length tb)) ti' t' Ht') as (u' & Hu' & N').
  exists u, u'. cbn [bt_tool]. rewrite N, N'. auto.
Qed.
Lemma x_wrap_tool rec s s' ubs t t' : good rec -> RS s s' -> In (tool_name t, tool_name t') ps -> orel RSx (wrap_tool e rec s ubs t) (wrap_tool e rec s' ubs t').
Proof.
  intros G H Hin. unfold wrap_tool. fold (tool_name t). fold (tool_name t'). cbn zeta.
  rewrite <- (r_handles _ _ (rs_b _ _ H)). pose proof (s_set_b _ _ _ _ H (x_hs _ _ (null_handles ubs (b_handles (s_b s))) (rs_b _ _ H))) as H1.
  set (s1 := set_b _ s) in *. set (s1' := set_b _ s') in *. clearbody s1 s1'. clear H s s'.
  destruct (reg_create _ _ (tool_name t) (r_reg _ _ (rs_b _ _ H1))) as (ts & i & x & E1 & G1 & Hx & Nx & X1). destruct (reg_create _ _ (tool_name t') (r_reg' _ _ (rs_b _ _ H1))) as (ts' & i' & x' & E1' & G1' & Hx' & Nx' & X1').
  rewrite E1, E1'. cbn [bind].
  assert (H2 : RS (set_b (set_btools ts (s_b s1)) s1) (set_b (set_btools ts' (s_b s1')) s1')).
  { apply s_set_b; [exact H1|]. destruct (rs_b _ _ H1). constructor; auto. cbn [b_tools b_tables set_btools]. eapply owners_ext; eassumption. }
  assert (T2 : b_tools (s_b (set_b (set_btools ts (s_b s1)) s1)) = ts) by reflexivity. assert (T2' : b_tools (s_b (set_b (set_btools ts' (s_b s1')) s1')) = ts') by reflexivity.
  set (s2 := set_b _ s1) in *. set (s2' := set_b _ s1') in *. clearbody s2 s2'. clear H1 X1 X1' E1 E1'. rewrite <- (rs_l _ _ H2). set (l2 := mkLS _ _ _ _). pose proof (s_set_l _ _ l2 H2) as H3. cbn [s_b set_l].
  eapply orel_bind; [eapply x_add; [exact (rs_b _ _ H2)|rewrite T2; exact Hx|rewrite T2'; exact Hx'|rewrite Nx, Nx'; exact Hin]|]. intros [b k] [b' k'] [H4 Ek]. cbn [fst snd] in *. subst k'.
  assert (TB : orel (owner (ts_heap (b_tools b)) (ts_heap (b_tools b'))) (deref (b_tables b) k) (deref (b_tables b') k)).
  { generalize (r_tab _ _ H4). intros F. unfold deref. clear - F. revert k. induction F; intros [|n]; cbn; auto. }
  eapply orel_bind; [exact TB|]. intros bt bt' (D & _). injection D as D _ _ _. rewrite <- D.
  eapply orel_bind; [apply x_loop; [exact G|]; split; [apply s_set_b; [exact H3|exact H4]|reflexivity]|]. intros [s4 pr] [s4' pr'] [H5 E5]. cbn [fst snd] in *. subst pr'.
  eapply (orel_bind RS); [destruct (pr_new pr); [apply x_gots|]; exact H5|]. intros s5 s5' H6. split; [exact H6|reflexivity].
Qed.
Lemma x_init rec s s' : good rec -> RS s s' -> orel RS (gotcha_init e rec s) (gotcha_init e rec s').
Proof.
  intros G H. unfold gotcha_init. rewrite <- (rs_init _ _ H). destruct (s_init s); [exact H|].
  eapply (orel_bind RS).
  - unfold setup_hash_tables. apply orel_same. intros lt. apply orel_same. intros ft. apply orel_same. intros nt. cbn [s_l s_b]. rewrite <- (rs_l _ _ H). destruct H as [A B C D E]. constructor; auto. cbn [s_b set_b set_l]. apply x_nf, x_fn, C.
  - intros s1 s1' H1. eapply orel_bind; [apply G; [exact H1|exact OWN]|]. intros [s2 c] [s2' c'] [H2 _]. exact H2.
Qed.
Lemma x_wrap_n : forall n, good (wrap_n e n).
Proof.
  induction n as [|n IH]; intros s s' ubs t t' H Hin; [reflexivity|]. cbn [wrap_n]. unfold wrap_body. eapply orel_bind; [apply x_init; [exact IH|exact H]|]. intros s1 s1' H1. apply x_wrap_tool; assumption.
Qed.
Lemma x_per k x s s' : RS s s' -> orel RSx (per_binding e k x s) (per_binding e k x s').
Proof.
  intros H. unfold per_binding. destruct k as [k|]; [|reflexivity]. destruct x as [b|]; [|reflexivity]. rewrite <- (r_ib _ _ (rs_b _ _ H)). apply orel_same. intros b2.
  eapply orel_bind; [apply x_prepare; exact H|]. intros [s1 fd] [s1' fd'] [H1 E]. cbn [fst snd] in *. subst fd'. destruct fd; [|split; [exact H1|reflexivity]]. rewrite <- (r_nf _ _ (rs_b _ _ H1)).
  apply orel_same. intros [t y]. split; [|reflexivity]. apply s_set_b; [exact H1|]. apply x_nf, (rs_b _ _ H1).
Qed.
Lemma x_finish s s' : RS s s' -> orel RS (dlopen_finish e s) (dlopen_finish e s').
Proof.
  intros H. unfold dlopen_finish, foreach_hash_entry. rewrite <- (r_nf _ _ (rs_b _ _ H)).
  assert (L : forall n i s s', RS s s' -> orel RSx (foreach_loop n (fun s => b_nf (s_b s)) (per_binding e) i s) (foreach_loop n (fun s => b_nf (s_b s)) (per_binding e) i s')).
  { induction n as [|n IH]; intros [i|] u u' Hu; try reflexivity; try (split; [exact Hu|reflexivity]). cbn [foreach_loop]. rewrite <- (r_nf _ _ (rs_b _ _ Hu)). destruct (nth_error _ i) as [x|]; [|reflexivity].
    eapply orel_bind; [apply x_per; exact Hu|]. intros [u1 c] [u1' c'] [H1 E]. cbn [fst snd] in *. subst c'. destruct (negb _); [split; [exact H1|reflexivity]|]. rewrite <- (r_nf _ _ (rs_b _ _ H1)). destruct (nth_error _ i); [apply IH; exact H1|reflexivity]. }
  eapply orel_bind; [apply L; exact H|]. intros [s1 c] [s1' c'] [H1 _]. cbn [fst] in H1. rewrite <- (r_fn _ _ (rs_b _ _ H1)). apply x_gots. exact H1.
Qed.
End Sim.

(** *** whole histories *)
Lemma reg_eq ts g g' : (forall x, g x = g' x) -> reg ts g -> reg ts g'.
Proof. intros H [A B]. constructor; [exact A|]. intros x. rewrite B. apply H. Qed.
Lemma RS_eq ps f f' g g' s s' : (forall x, f x = g x) -> (forall x, f' x = g' x) -> RS ps f f' s s' -> RS ps g g' s s'.
Proof. intros H H' [A B [C1 C2 C3 C4 C5 C6 C7 C8] D E]. constructor; auto. constructor; eauto using reg_eq. Qed.
Lemma RS_more ps p f f' s s' : RS ps f f' s s' -> RS (p :: ps) f f' s s'.
Proof.
  intros [A B [C1 C2 C3 C4 C5 C6 C7 C8] D E]. constructor; auto. constructor; auto. clear - C8. induction C8 as [|b b' l l' (X & t & t' & Ht & Ht' & H)]; constructor; auto. split; [exact X|]. exists t, t'. cbn [In]. auto.
Qed.
Definition kept (h h1 : list tool) : Prop := forall j x, nth_error h j = Some x -> exists x', nth_error h1 j = Some x' /\ t_name x' = t_name x.
Lemma kept_refl h : kept h h.
Proof. intros j x H. eauto. Qed.
Lemma RS_left ps f f' g s s' ts : RS ps f f' s s' -> reg ts g -> kept (ts_heap (b_tools (s_b s))) (ts_heap ts) -> RS ps g f' (set_b (set_btools ts (s_b s)) s) s'.
Proof. intros [A B [C1 C2 C3 C4 C5 C6 C7 C8] D E] G K. constructor; auto. constructor; auto. cbn [s_b set_b b_tools b_tables set_btools]. eapply owners_ext; [exact K|apply kept_refl|exact C8]. Qed.
Lemma RS_right ps f f' g s s' ts : RS ps f f' s s' -> reg ts g -> kept (ts_heap (b_tools (s_b s'))) (ts_heap ts) -> RS ps f g s (set_b (set_btools ts (s_b s')) s').
Proof. intros [A B [C1 C2 C3 C4 C5 C6 C7 C8] D E] G K. constructor; auto. constructor; auto. cbn [s_b set_b b_tools b_tables set_btools]. eapply owners_ext; [apply kept_refl|exact K|exact C8]. Qed.

Lemma last_snoc l o x : last_set (l ++ [o]) x = set_last x (last_set l x) o.
Proof. unfold last_set. rewrite fold_left_app. reflexivity. Qed.
Lemma prio_set_use m t v x : prio_of (set_prio (use_tool m t) t v) x = if cstr_eqb t x then v else prio_of m x.
Proof.
  destruct (cstr_eqb t x) eqn:E.
  - apply cstr_eqb_ok in E. subst x. unfold prio_of. rewrite aget_set, cstr_eqb_refl. rewrite aget_use. rewrite cstr_eqb_refl. destruct (aget cstr_eqb m t); reflexivity.
  - rewrite prio_set_other, prio_use; [reflexivity|]. intros ->. rewrite cstr_eqb_refl in E. discriminate.
Qed.
Lemma prio_step e l st o : 48 <= e_ps e -> is_prio o = true -> s_init st = true -> reg (b_tools (s_b st)) (last_set l) ->
  exists ts r, step e st o = Ok (set_b (set_btools ts (s_b st)) st, r) /\ reg ts (last_set (l ++ [o])) /\ kept (ts_heap (b_tools (s_b st))) (ts_heap ts).
Proof.
  intros PS HP I [[k O] P]. destruct o as [|t v|t| | | |]; try discriminate HP; cbn [step].
  - unfold gotcha_set_priority, api_init, gotcha_init. rewrite I. cbn [bind]. destruct (set_priority_spec (e_ps e) _ k t v PS O) as (ts & k' & A1 & A2 & A3 & A4). rewrite A1. cbn [bind]. exists ts. eexists. split; [reflexivity|]. split.
    + constructor; [exists k'; exact A2|]. intros x. rewrite A3, prio_set_use, last_snoc. cbn [set_last]. rewrite P. reflexivity.
    + intros j x Hx. destruct (A4 j x Hx) as (x' & Hx' & T). exists x'. split; [exact Hx'|]. unfold tbind in T. congruence.
  - unfold gotcha_get_priority, api_init, gotcha_init. rewrite I. cbn [bind]. rewrite (get_configuration_spec _ k t O). cbn [bind]. exists (b_tools (s_b st)). destruct (aget _ _ t); eexists; (split; [destruct st as [? ? [] ? ?]; reflexivity|]);
      (split; [|apply kept_refl]); (constructor; [exists k; exact O|]); intros x; rewrite last_snoc; apply P.
Qed.
Lemma step_via_init e st o : is_prio o = true -> step e st o = (do st1 <- api_init e st; step e st1 o).
Proof.
  intros HP. destruct o; try discriminate HP; cbn [step]; unfold gotcha_set_priority, gotcha_get_priority; destruct (api_init e st) as [st1|] eqn:E; try reflexivity; cbn [bind]; destruct (inits_of _ _ _ _ E) as [I _]; unfold api_init, gotcha_init; rewrite I; reflexivity.
Qed.
Lemma api_started e st o st' r : is_api o = true -> step e st o = Ok (st', r) -> s_init st' = true.
Proof.
  intros A E. destruct (step_mics e st o st' r) as [(_ & _ & X)|(st1 & tr & In & I1 & M & _)]; [destruct o; try discriminate A; exact Logic.I|exact E| |].
  - subst o. discriminate A.
  - apply mics_frame in M. destruct M as (M & _). congruence.
Qed.

Record J (l l' : list op) (ps : list (cstr * cstr)) (s s' : state) : Prop := {
  j_rs : RS ps (last_set l) (last_set l') s s'; j_i : s_init s = existsb is_api l; j_i' : s_init s' = existsb is_api l';
  j_own : In (n_gotcha, n_gotcha) ps; j_one : existsb is_api l = false -> ps = [(n_gotcha, n_gotcha)] }.
Definition Jr l l' ps (x x' : state * list res) : Prop :=
  J l l' ps (fst x) (fst x') /\ other_results l (snd x) = other_results l' (snd x') /\ length (snd x) = length l /\ length (snd x') = length l'.
Lemma others_snoc o x : forall l rs, length rs = length l -> other_results (l ++ [o]) (rs ++ [x]) = other_results l rs ++ (if is_prio o then [] else [x]).
Proof.
  induction l as [|a l IH]; intros [|y rs] H; try discriminate H; cbn [app other_results]; [destruct (is_prio o); reflexivity|]. injection H as H. rewrite IH by exact H. destruct (is_prio a); reflexivity.
Qed.
Lemma snoc_run e st l o : run e st (l ++ [o]) = (do ' (s, rs) <- run e st l; do ' (s1, x) <- step e s o; Ok (s1, rs ++ [x])).
Proof. rewrite run_app. destruct (run e st l) as [[s rs]|]; [|reflexivity]. cbn [bind]. rewrite run_one. destruct (step e s o) as [[s1 x]|]; reflexivity. Qed.
Lemma prio_api o : is_prio o = true -> is_api o = true.
Proof. destruct o; auto. Qed.
Lemma api_snoc l o : existsb is_api (l ++ [o]) = existsb is_api l || is_api o.
Proof. rewrite existsb_app. cbn [existsb]. rewrite orb_false_r. reflexivity. Qed.

Lemma both_started e l l' ps s s' o o' : 48 <= e_ps e -> RS ps (last_set l) (last_set l') s s' -> s_init s = true -> is_prio o = true -> is_prio o' = true ->
  orel (fun x x' => RS ps (last_set (l ++ [o])) (last_set (l' ++ [o'])) (fst x) (fst x') /\ s_init (fst x) = true /\ s_init (fst x') = true) (step e s o) (step e s' o').
Proof.
  intros PS H I P P'. pose proof (rs_init _ _ _ _ _ H) as I'. rewrite I in I'. symmetry in I'.
  destruct (prio_step e l s o PS P I (r_reg _ _ _ _ _ (rs_b _ _ _ _ _ H))) as (ts & r & E & G & K). destruct (prio_step e l' s' o' PS P' I' (r_reg' _ _ _ _ _ (rs_b _ _ _ _ _ H))) as (ts' & r' & E' & G' & K').
  rewrite E, E'. cbn [orel fst]. split; [|split; assumption]. eapply RS_left; [eapply RS_right; eassumption|exact G|exact K].
Qed.
Lemma pair_run e maps mem l l' ps : 48 <= e_ps e -> paired l l' ps -> orel (Jr l l' ps) (run e (init_state maps mem) l) (run e (init_state maps mem) l').
Proof.
  intros PS H. induction H as [|l l' ps o o' H IH P P'|l l' ps o H IH A P|l l' ps o H IH A P|l l' ps o H IH P|l l' ps ubs t t' H IH AG].
  - cbn [run orel]. split; [|auto]. cbn [fst]. constructor; try reflexivity; [|left; reflexivity].
    assert (G : reg (mkTS [] None) (last_set [])) by (constructor; [exists []; constructor; cbn; first [reflexivity|constructor|contradiction]|reflexivity]).
    constructor; try reflexivity. constructor; try reflexivity; [exact G|exact G|cbn; constructor].
  - rewrite !snoc_run. eapply orel_bind; [exact IH|]. intros [s rs] [s' rs'] ([HR HI HI' HO H1] & HE & HL & HL'). cbn [fst snd] in *.
    eapply (orel_bind (fun x x' => RS ps (last_set (l ++ [o])) (last_set (l' ++ [o'])) (fst x) (fst x') /\ s_init (fst x) = true /\ s_init (fst x') = true)).
    + destruct (s_init s) eqn:I; [apply both_started; assumption|]. rewrite (step_via_init e s o P), (step_via_init e s' o' P'). symmetry in HI. specialize (H1 HI). subst ps.
      assert (AG : forall x x' y y', In (x, x') [(n_gotcha, n_gotcha)] -> In (y, y') [(n_gotcha, n_gotcha)] -> (last_set l x <? last_set l y) = (last_set l' x' <? last_set l' y')).
      { intros x x' y y' [X|[]] [Y|[]]. injection X as <- <-. injection Y as <- <-. rewrite !Z.ltb_irrefl. reflexivity. }
      pose proof (x_init e _ _ _ HO _ _ _ (x_wrap_n e PS _ _ _ HO AG 3) HR) as X. fold (api_init e s) in X. fold (api_init e s') in X.
      destruct (api_init e s) as [s1|] eqn:E1, (api_init e s') as [s1'|]; cbn [orel bind] in *; try contradiction; [|exact X]. destruct (inits_of _ _ _ _ E1) as [I1 _]. apply both_started; assumption.
    + intros [s1 x] [s1' x'] (H2 & I1 & I1'). cbn [fst snd] in *. split; [|split; [|cbn [fst snd]; rewrite !app_length; cbn [length]; lia]]; cbn [fst snd].
      * constructor; auto; rewrite ?api_snoc, ?(prio_api _ P), ?(prio_api _ P'), ?orb_true_r; auto. discriminate.
      * rewrite !others_snoc, P, P', !app_nil_r; auto.
  - rewrite snoc_run. destruct (run e (init_state maps mem) l) as [[s rs]|], (run e (init_state maps mem) l') as [[s' rs']|]; cbn [orel bind] in *; try contradiction; [|exact IH]. destruct IH as ([HR HI HI' HO H1] & HE & HL & HL'). cbn [fst snd] in *.
    rewrite A in HI. destruct (prio_step e l s o PS P HI (r_reg _ _ _ _ _ (rs_b _ _ _ _ _ HR))) as (ts & r & E & G & K). rewrite E. cbn [bind orel]. split; [|split; [|split; [cbn [fst snd]; rewrite !app_length; cbn [length]; lia|exact HL']]]; cbn [fst snd].
    + constructor; auto; [eapply RS_left; eassumption|rewrite api_snoc, A; exact HI|rewrite api_snoc, A; discriminate].
    + rewrite others_snoc, P, app_nil_r; auto.
  - rewrite snoc_run. destruct (run e (init_state maps mem) l) as [[s rs]|], (run e (init_state maps mem) l') as [[s' rs']|]; cbn [orel bind] in *; try contradiction; [|exact IH]. destruct IH as ([HR HI HI' HO H1] & HE & HL & HL'). cbn [fst snd] in *.
    rewrite A in HI'. destruct (prio_step e l' s' o PS P HI' (r_reg' _ _ _ _ _ (rs_b _ _ _ _ _ HR))) as (ts & r & E & G & K). rewrite E. cbn [bind orel]. split; [|split; [|split; [exact HL|cbn [fst snd]; rewrite !app_length; cbn [length]; lia]]]; cbn [fst snd].
    + constructor; auto; [eapply RS_right; eassumption|rewrite api_snoc, A; exact HI'].
    + rewrite others_snoc, P, app_nil_r; auto.
  - rewrite !snoc_run. eapply orel_bind; [exact IH|]. intros [s rs] [s' rs'] ([HR HI HI' HO H1] & HE & HL & HL'). cbn [fst snd] in *.
    assert (Q : is_prio o = false) by (destruct o; auto).
    eapply (orel_bind (fun x x' => RS ps (last_set l) (last_set l') (fst x) (fst x') /\ snd x = snd x' /\ s_init (fst x) = s_init s)).
    + destruct HR as [A B C D E]. destruct o; try discriminate P; cbn [step].
      * cbn [orel fst snd]. split; [|split; reflexivity]. unfold set_filter, set_p. rewrite <- E. constructor; auto.
      * cbn [orel fst snd]. split; [|split; reflexivity]. unfold set_p. rewrite <- E. constructor; auto.
      * rewrite <- A. destruct (s_init s) eqn:I; [|cbn [orel fst snd]; split; [constructor; auto; congruence|auto]].
        pose proof (x_finish e ps _ _ s s' (Build_RS _ _ _ _ _ (eq_trans I A) B C D E)) as X.
        destruct (dlopen_finish e s) as [s1|] eqn:F, (dlopen_finish e s') as [s1'|]; cbn [orel bind fst snd] in *; try contradiction; [|exact X]. split; [exact X|]. split; [reflexivity|].
        destruct (step_mics e s OFinish s1 RNone) as [(_ & Y & _)|(st1 & tr & _ & I1 & M & _)]; [exact Logic.I|cbn [step]; rewrite I, F; reflexivity|congruence|]. apply mics_frame in M. destruct M as (M & _). congruence.
      * cbn [orel fst snd]. split; [|split; reflexivity]. unfold set_p. rewrite <- E. constructor; auto.
    + intros [s1 x] [s1' x'] (H2 & Ex & I1). cbn [fst snd] in *. subst x'. split; [|split; [|cbn [fst snd]; rewrite !app_length; cbn [length]; lia]]; cbn [fst snd].
      * pose proof (rs_init _ _ _ _ _ HR) as R1. pose proof (rs_init _ _ _ _ _ H2) as R2. constructor; auto; rewrite ?api_snoc, ?P, ?orb_false_r; auto; [|congruence|congruence].
        eapply RS_eq; [| |exact H2]; intros y; rewrite last_snoc; destruct o; try reflexivity; discriminate P.
      * rewrite !others_snoc, Q, HE; auto.
  - rewrite !snoc_run. eapply orel_bind; [exact IH|]. intros [s rs] [s' rs'] ([HR HI HI' HO H1] & HE & HL & HL'). cbn [fst snd] in *.
    set (p := (tool_name t, tool_name t')) in *.
    assert (AG2 : forall x x' y y', In (x, x') (p :: ps) -> In (y, y') (p :: ps) -> (last_set l x <? last_set l y) = (last_set l' x' <? last_set l' y')).
    { intros x x' y y' X Y. specialize (AG x x' y y' X Y). destruct (Z.ltb_spec (last_set l x) (last_set l y)), (Z.ltb_spec (last_set l' x') (last_set l' y')); auto; lia. }
    pose proof (x_wrap_n e PS (p :: ps) _ _ (in_cons _ _ _ HO) AG2 3 s s' ubs t t' (RS_more _ p _ _ _ _ HR) (in_eq _ _)) as X. fold (gotcha_wrap e) in X.
    destruct (step e s (OWrap ubs t)) as [[s1 x]|] eqn:E1, (step e s' (OWrap ubs t')) as [[s1' x']|] eqn:E1'; pose proof E1 as F1; pose proof E1' as F1'; cbn [step] in E1, E1';
      destruct (gotcha_wrap e s ubs t) as [[u c]|], (gotcha_wrap e s' ubs t') as [[u' c']|]; cbn [orel bind] in *; try discriminate; try contradiction; [|congruence].
    injection E1 as -> <-. injection E1' as -> <-. destruct X as [X Ec]. cbn [fst snd] in *. subst c'. split; [|split; [|cbn [fst snd]; rewrite !app_length; cbn [length]; lia]]; cbn [fst snd].
    + constructor; rewrite ?api_snoc, ?orb_true_r; auto using in_cons; try discriminate; [|eapply api_started; [|exact F1]; reflexivity|eapply api_started; [|exact F1']; reflexivity].
      eapply RS_eq; [| |exact X]; intros y; rewrite last_snoc; reflexivity.
    + rewrite !others_snoc, HE; auto.
Qed.

Lemma RS_effects ps f f' s s' : RS ps f f' s s' -> same_effects s s'.
Proof.
  intros [A B [C1 C2 C3 C4 C5 C6 C7 C8] D E]. constructor; auto. clear - C8. induction C8 as [|b b' l l' [X _]]; cbn [map]; [reflexivity|]. rewrite X. f_equal. assumption.
Qed.

(** *** paired histories *)
Lemma last_same_tail q : forall l l' t, last_set l t = last_set l' t -> last_set (l ++ q) t = last_set (l' ++ q) t.
Proof. intros l l' t H. unfold last_set in *. rewrite !fold_left_app, H. reflexivity. Qed.
Definition twins (ps : list (cstr * cstr)) : Prop := forall x x', In (x, x') ps -> x = x'.
Lemma paired_tail q : forall l l' ps, paired l l' ps -> twins ps -> (forall t, last_set l t = last_set l' t) -> exists ps', paired (l ++ q) (l' ++ q) ps' /\ twins ps'.
Proof.
  induction q as [|o q IH]; intros l l' ps H T E; [rewrite !app_nil_r; eauto|].
  assert (X : exists ps', paired (l ++ [o]) (l' ++ [o]) ps' /\ twins ps').
  { destruct (is_api o) eqn:A; [|exists ps; split; [apply pa_same; assumption|exact T]]. destruct o as [u t|t v|t| | | |]; try discriminate A.
    - assert (T2 : twins ((tool_name t, tool_name t) :: ps)) by (intros x x' [X|X]; [congruence|auto]). exists ((tool_name t, tool_name t) :: ps). split; [|exact T2].
      apply pa_wrap; [exact H|]. intros x x' y y' X Y. apply T2 in X, Y. subst x' y'. rewrite !E. reflexivity.
    - exists ps. split; [apply pa_both; auto|exact T].
    - exists ps. split; [apply pa_both; auto|exact T]. }
  destruct X as (ps' & X & T'). destruct (IH _ _ _ X T') as (ps2 & Y & T2); [intros t; apply last_same_tail, E|]. exists ps2. rewrite <- !app_assoc in Y. auto.
Qed.
Lemma paired_refl l : exists ps, paired l l ps /\ twins ps.
Proof. apply (paired_tail l [] [] _ pa_nil); [|reflexivity]. intros x x' [X|[]]. congruence. Qed.
Lemma paired_prio q q' : forall l ps, paired l l ps -> existsb is_api l = true -> forallb is_prio q = true -> forallb is_prio q' = true -> paired (l ++ q) (l ++ q') ps.
Proof.
  intros l ps H A Q Q'. assert (L : paired (l ++ q) l ps).
  { clear q' Q'. induction q as [|o q IH] using rev_ind; [rewrite app_nil_r; exact H|]. rewrite forallb_app in Q. apply andb_true_iff in Q. destruct Q as [Q O]. cbn in O. rewrite andb_true_r in O. rewrite app_assoc. apply pa_left; auto. rewrite existsb_app, A. reflexivity. }
  induction q' as [|o q' IH] using rev_ind; [rewrite app_nil_r; exact L|]. rewrite forallb_app in Q'. apply andb_true_iff in Q'. destruct Q' as [Q' O]. cbn in O. rewrite andb_true_r in O. rewrite app_assoc. apply pa_right; auto. rewrite existsb_app, A. reflexivity.
Qed.
Lemma paired_anyone ops ops' : Forall2 (fun o o' => match o, o' with OWrap u _, OWrap u' _ => u = u' | OSetPriority _ _, _ => False | _, _ => o = o' end) ops ops' ->
  forall l l' ps, paired l l' ps -> (forall t, last_set l t = -1) -> (forall t, last_set l' t = -1) -> exists ps', paired (l ++ ops) (l' ++ ops') ps'.
Proof.
  induction 1 as [|o o' q q' X F IH]; intros l l' ps H E E'; [rewrite !app_nil_r; eauto|].
  assert (Y : exists ps', paired (l ++ [o]) (l' ++ [o']) ps' /\ (forall t, last_set (l ++ [o]) t = -1) /\ (forall t, last_set (l' ++ [o']) t = -1)).
  { assert (Z : forall k, (forall t, last_set k t = -1) -> forall p, (match p with OSetPriority _ _ => False | _ => True end) -> forall t, last_set (k ++ [p]) t = -1).
    { intros k K p N t. rewrite last_snoc, K. destruct p; auto; contradiction. }
    destruct o as [u t|t v|t| | | |]; try contradiction.
    1: { destruct o' as [u' t'| | | | | |]; try discriminate X. subst u'. exists ((tool_name t, tool_name t') :: ps). split; [apply pa_wrap; [exact H|]; intros; rewrite !E, !E'; lia|]. split; apply Z; auto. }
    all: subst o'; exists ps; split; [first [apply pa_same; [exact H|reflexivity]|apply pa_both; [exact H|reflexivity|reflexivity]]|]; split; apply Z; auto. }
  destruct Y as (ps' & Y & E1 & E2). destruct (IH _ _ _ Y E1 E2) as (ps2 & W). exists ps2. rewrite <- !app_assoc in W. exact W.
Qed.
