(** The relation between the heap of bindings and the abstract stacks, and its preservation by
    place_binding. *)
From Verif Require Import Base ListFacts HashModel HashProofs SpecHash HashTrace ElfModel ToolModel CoreModel SpecCore ToolProofs CoreMaps.
From Coq Require Import Permutation Sorted.

Definition inx (ibs : list ibind) (i : nat) : option (option nat) := option_map ib_next (nth_error ibs i).
Definition buser (b : ibind) : nat * ubind := (ib_table b, ib_user b).
Definition wee (ibs : list ibind) (i : nat) : option wptr := option_map ib_wrappee (nth_error ibs i).
Definition wrp (ibs : list ibind) (i : nat) : Z := match nth_error ibs i with Some b => ub_wrapper (ib_user b) | None => 0 end.

Definition entry_of (bs : bstate) (i : nat) : option entry :=
  match nth_error (b_ib bs) i with
  | None => None
  | Some ib =>
    match nth_error (b_tables bs) (ib_table ib) with
    | None => None
    | Some bt =>
      match nth_error (ts_heap (b_tools bs)) (bt_tool bt) with
      | None => None
      | Some t => Some (mkE (t_name t) (ub_wrapper (ib_user ib)) (ub_handle (ib_user ib)))
      end
    end
  end.

Definition name_of (bs : bstate) (i : nat) : option cstr := option_map (fun b => ub_name (ib_user b)) (nth_error (b_ib bs) i).

Record brel (bs : bstate) (tools : list (cstr * Z)) (stack : cstr -> list entry) (ch : cstr -> list nat) (todo : list nat) : Prop := {
  br_tools : exists l, tools_ok (b_tools bs) l;
  br_prios : tool_prios (ts_heap (b_tools bs)) = tools;
  br_entry : forall i, (i < length (b_ib bs))%nat -> entry_of bs i <> None;
  br_stack : forall n, Forall2 (fun i x => entry_of bs i = Some x) (ch n) (stack n);
  br_chain : forall n, lseg (inx (b_ib bs)) (hd_error (ch n)) (ch n);
  br_nodup : forall n, NoDup (ch n);
  br_name : forall n i, In i (ch n) -> name_of bs i = Some n;
  br_todo : forall i, In i todo -> inx (b_ib bs) i = Some None /\ forall n, ~ In i (ch n);
  br_todo_nd : NoDup todo;
  br_handles : forall i ib, nth_error (b_ib bs) i = Some ib ->
                 exists j, b_handles bs (ub_handle (ib_user ib)) = Some j /\ (j < length (b_ib bs))%nat;
  br_fn : smap (b_fn bs) (fun n => hd_error (ch n)) }.

(** wrappees: every wrapper's wrappee is the next wrapper, the innermost one's the original function *)
Definition ow (o : option Z) : wptr := match o with Some a => Ptr a | None => Uninit end.
Fixpoint links (ibs : list ibind) (l : list nat) (o : option Z) : Prop :=
  match l with
  | [] => True
  | i :: r => wee ibs i = Some (match r with [] => ow o | j :: _ => Ptr (wrp ibs j) end) /\ links ibs r o
  end.

Record wrel (bs : bstate) (orig : cstr -> option Z) (ch : cstr -> list nat) (todo : list nat) : Prop := {
  wr_handles : forall i ib, nth_error (b_ib bs) i = Some ib -> b_handles bs (ub_handle (ib_user ib)) = Some i;
  wr_links : forall n, links (b_ib bs) (ch n) (orig n);
  wr_todo : forall i, In i todo -> wee (b_ib bs) i = Some Uninit;
  wr_cover : forall i, (i < length (b_ib bs))%nat -> In i todo \/ exists n, In i (ch n) }.

(** split conjunctions only *)
Ltac spl := match goal with |- _ /\ _ => split; [|spl] | _ => idtac end.

(** *** basic facts *)
Lemma map_nth_eq {A B} (f : A -> B) l l' i x : map f l' = map f l -> nth_error l i = Some x ->
  exists x', nth_error l' i = Some x' /\ f x' = f x.
Proof.
  intros E H. pose proof (map_nth_error f i l H) as H1. rewrite <- E, nth_error_map in H1.
  destruct (nth_error l' i) as [x'|]; [|discriminate]. exists x'. split; [reflexivity|]. cbn [option_map] in H1. congruence.
Qed.
Lemma map_eq_length {A B} (f : A -> B) l l' : map f l' = map f l -> length l' = length l.
Proof. intros E. rewrite <- (map_length f l'), E, map_length. reflexivity. Qed.

Lemma upd_map {A B} (f : A -> B) g l i : (forall x, f (g x) = f x) -> map f (upd l i g) = map f l.
Proof. intros H. revert i. induction l as [|x r IH]; intros [|i]; cbn; auto; f_equal; auto. Qed.

Lemma inx_upd_next ibs i v j : inx (upd ibs i (set_inext v)) j = if Nat.eqb i j then option_map (fun _ => v) (nth_error ibs j) else inx ibs j.
Proof.
  unfold inx. rewrite nth_error_upd. destruct (Nat.eqb i j) eqn:E; [|reflexivity].
  apply Nat.eqb_eq in E. subst. destruct (nth_error ibs j); reflexivity.
Qed.
Lemma inx_upd_wrappee ibs i v j : inx (upd ibs i (set_iwrappee v)) j = inx ibs j.
Proof.
  unfold inx. rewrite nth_error_upd. destruct (Nat.eqb i j) eqn:E; [|reflexivity].
  apply Nat.eqb_eq in E. subst. destruct (nth_error ibs j); reflexivity.
Qed.
Lemma wee_upd_next ibs i v j : wee (upd ibs i (set_inext v)) j = wee ibs j.
Proof.
  unfold wee. rewrite nth_error_upd. destruct (Nat.eqb i j) eqn:E; [|reflexivity].
  apply Nat.eqb_eq in E. subst. destruct (nth_error ibs j); reflexivity.
Qed.
Lemma wee_upd_wrappee ibs i v j : wee (upd ibs i (set_iwrappee v)) j = if Nat.eqb i j then option_map (fun _ => v) (nth_error ibs j) else wee ibs j.
Proof.
  unfold wee. rewrite nth_error_upd. destruct (Nat.eqb i j) eqn:E; [|reflexivity].
  apply Nat.eqb_eq in E. subst. destruct (nth_error ibs j); reflexivity.
Qed.
Lemma buser_next ibs i v : map buser (upd ibs i (set_inext v)) = map buser ibs.
Proof. apply upd_map. reflexivity. Qed.
Lemma buser_wrappee ibs i v : map buser (upd ibs i (set_iwrappee v)) = map buser ibs.
Proof. apply upd_map. reflexivity. Qed.

Lemma buser_nth_None ibs ibs' i : map buser ibs' = map buser ibs -> nth_error ibs i = None -> nth_error ibs' i = None.
Proof. intros E H. apply nth_error_None. rewrite (map_eq_length _ _ _ E). apply nth_error_None. auto. Qed.

Lemma buser_wrp ibs ibs' i : map buser ibs' = map buser ibs -> wrp ibs' i = wrp ibs i.
Proof.
  intros E. unfold wrp. destruct (nth_error ibs i) as [b|] eqn:H.
  - destruct (map_nth_eq buser ibs ibs' i b E H) as (b' & -> & E'). unfold buser in E'. congruence.
  - rewrite (buser_nth_None _ _ _ E H). reflexivity.
Qed.

Lemma buser_entry bs bs' i : map buser (b_ib bs') = map buser (b_ib bs) -> b_tables bs' = b_tables bs -> b_tools bs' = b_tools bs ->
  entry_of bs' i = entry_of bs i.
Proof.
  intros E Et Eo. unfold entry_of. rewrite Et, Eo. destruct (nth_error (b_ib bs) i) as [b|] eqn:H.
  - destruct (map_nth_eq buser _ _ i b E H) as (b' & -> & E'). unfold buser in E'.
    assert (E1 : ib_table b' = ib_table b) by congruence. assert (E2 : ib_user b' = ib_user b) by congruence. rewrite E1, E2. reflexivity.
  - rewrite (buser_nth_None _ _ _ E H). reflexivity.
Qed.

Lemma buser_name bs bs' i : map buser (b_ib bs') = map buser (b_ib bs) -> name_of bs' i = name_of bs i.
Proof.
  intros E. unfold name_of. destruct (nth_error (b_ib bs) i) as [b|] eqn:H.
  - destruct (map_nth_eq buser _ _ i b E H) as (b' & -> & E'). unfold buser in E'. cbn. congruence.
  - rewrite (buser_nth_None _ _ _ E H). reflexivity.
Qed.

Lemma entry_lt bs i x : entry_of bs i = Some x -> (i < length (b_ib bs))%nat.
Proof. unfold entry_of. destruct (nth_error (b_ib bs) i) eqn:H; [|discriminate]. intros _. eapply nth_error_Some_lt; eauto. Qed.

Lemma prio_of_tool h i t : NoDup (map t_name h) -> nth_error h i = Some t -> prio_of (tool_prios h) (t_name t) = t_prio t.
Proof.
  intros ND H. unfold prio_of. rewrite (aget_In cstr_eqb cstr_eqb_ok _ _ (t_prio t)); [reflexivity| |].
  - rewrite prios_names. auto.
  - apply nth_error_In in H. apply (in_map (fun t => (t_name t, t_prio t))) in H. exact H.
Qed.

Lemma entry_priority bs tools i x : (exists l, tools_ok (b_tools bs) l) -> tool_prios (ts_heap (b_tools bs)) = tools ->
  entry_of bs i = Some x -> binding_priority bs i = Ok (prio_of tools (en_tool x)).
Proof.
  intros [l TO] <- H. unfold entry_of in H. unfold binding_priority, deref, get_priority, deref.
  destruct (nth_error (b_ib bs) i) as [ib|]; [|discriminate]. cbn [bind].
  destruct (nth_error (b_tables bs) (ib_table ib)) as [bt|]; [|discriminate]. cbn [bind].
  destruct (nth_error (ts_heap (b_tools bs)) (bt_tool bt)) as [t|] eqn:E; [|discriminate]. cbn [bind].
  injection H as <-. cbn [en_tool]. rewrite (prio_of_tool _ _ _ (to_names _ _ TO) E). reflexivity.
Qed.

Lemma entry_user bs i x : entry_of bs i = Some x ->
  exists ib, nth_error (b_ib bs) i = Some ib /\ ub_wrapper (ib_user ib) = en_wrapper x /\ ub_handle (ib_user ib) = en_handle x.
Proof.
  unfold entry_of. destruct (nth_error (b_ib bs) i) as [ib|]; [|discriminate].
  destruct (nth_error (b_tables bs) (ib_table ib)) as [bt|]; [|discriminate].
  destruct (nth_error (ts_heap (b_tools bs)) (bt_tool bt)) as [t|]; [|discriminate]. intros H. injection H as <-. eauto.
Qed.

(** *** insertion, as done by the code (a wrapper that is already there is skipped) *)
Fixpoint ins_walk (m : list (cstr * Z)) (x h : entry) (r : list entry) : list entry :=
  match r with
  | [] => [h; x]
  | y :: r' => if prio_of m (en_tool y) <? prio_of m (en_tool x) then h :: x :: r
               else if en_wrapper h =? en_wrapper x then h :: r
               else h :: ins_walk m x y r'
  end.
Definition ins_c (m : list (cstr * Z)) (x : entry) (s : list entry) : list entry :=
  match s with
  | [] => [x]
  | h :: r => if prio_of m (en_tool h) <? prio_of m (en_tool x) then x :: s else ins_walk m x h r
  end.

Lemma ins_walk_place m x r : forall h, ~ In (en_wrapper x) (map en_wrapper (h :: r)) -> ~ prio_of m (en_tool h) < prio_of m (en_tool x) ->
  ins_walk m x h r = place m x (h :: r).
Proof.
  induction r as [|y r IH]; intros h Hn Hp; cbn; destruct (Z.ltb_spec (prio_of m (en_tool h)) (prio_of m (en_tool x))); try lia; [reflexivity|].
  destruct (Z.ltb_spec (prio_of m (en_tool y)) (prio_of m (en_tool x))); [reflexivity|].
  destruct (Z.eqb_spec (en_wrapper h) (en_wrapper x)) as [E|E]; [exfalso; apply Hn; cbn; auto|].
  rewrite IH.
  - cbn. destruct (Z.ltb_spec (prio_of m (en_tool y)) (prio_of m (en_tool x))); [lia|reflexivity].
  - intros H1. apply Hn. right. exact H1.
  - lia.
Qed.

Lemma ins_c_place m x s : ~ In (en_wrapper x) (map en_wrapper s) -> ins_c m x s = place m x s.
Proof.
  destruct s as [|h r]; intros H; [reflexivity|]. unfold ins_c.
  destruct (Z.ltb_spec (prio_of m (en_tool h)) (prio_of m (en_tool x))) as [L|L].
  - cbn. destruct (Z.ltb_spec (prio_of m (en_tool h)) (prio_of m (en_tool x))); [reflexivity|lia].
  - apply ins_walk_place; [auto|lia].
Qed.

(** *** links *)
Lemma links_ext ibs ibs' l o : (forall i, In i l -> wee ibs' i = wee ibs i) -> (forall i, In i l -> wrp ibs' i = wrp ibs i) ->
  links ibs l o -> links ibs' l o.
Proof.
  induction l as [|i r IH]; intros H1 H2; [auto|]. cbn. intros [A B]. split.
  - rewrite H1 by (left; auto). rewrite A. destruct r as [|j r']; [auto|]. rewrite H2 by (right; left; auto). reflexivity.
  - apply IH; auto; intros; [apply H1|apply H2]; right; auto.
Qed.

Lemma links_insert ibs ibs' o b : forall l1 c l2, links ibs (l1 ++ c :: l2) o -> ~ In b (l1 ++ c :: l2) -> NoDup (l1 ++ c :: l2) ->
  (forall i, wrp ibs' i = wrp ibs i) -> (forall i, i <> b -> i <> c -> wee ibs' i = wee ibs i) ->
  wee ibs' c = Some (Ptr (wrp ibs b)) -> wee ibs' b = wee ibs c -> links ibs' (l1 ++ c :: b :: l2) o.
Proof.
  induction l1 as [|i r IH]; intros c l2 H Hb ND Hw He Hc Hbb.
  - cbn in *. destruct H as [A B]. inversion ND; subst.
    split; [rewrite Hw; auto|]. split.
    + rewrite Hbb, A. destruct l2; [auto|]. rewrite Hw. reflexivity.
    + eapply links_ext; [| |exact B]; [|auto]. intros i Hi. apply He; intros ->; tauto.
  - cbn in H |- *. destruct H as [A B]. inversion ND; subst. split.
    + rewrite He; [|intros ->; apply Hb; left; auto|intros ->; apply H1; apply in_elt].
      rewrite A. destruct r as [|j r']; cbn; rewrite Hw; reflexivity.
    + apply IH; auto. intros Hx. apply Hb. right. auto.
Qed.

Lemma links_last ibs l i o : links ibs (l ++ [i]) o -> wee ibs i = Some (ow o).
Proof.
  induction l as [|j r IH]; cbn; [tauto|]. intros [_ B]. auto.
Qed.

Lemma links_set_last ibs ibs' l i o o' : links ibs (l ++ [i]) o -> NoDup (l ++ [i]) ->
  (forall j, wrp ibs' j = wrp ibs j) -> (forall j, j <> i -> wee ibs' j = wee ibs j) -> wee ibs' i = Some (ow o') ->
  links ibs' (l ++ [i]) o'.
Proof.
  induction l as [|j r IH]; intros H ND Hw He Hi.
  - cbn. auto.
  - cbn in H |- *. destruct H as [A B]. inversion ND; subst. split; [|auto].
    rewrite He by (intros ->; apply H1; apply in_or_app; right; left; auto). rewrite A.
    destruct r; cbn; rewrite Hw; reflexivity.
Qed.

(** *** a binding enters a chain *)
Lemma brel_insert bs bs' tools stack ch todo b n x L s :
  brel bs tools stack ch (b :: todo) ->
  b_tools bs' = b_tools bs -> b_tables bs' = b_tables bs -> b_handles bs' = b_handles bs ->
  map buser (b_ib bs') = map buser (b_ib bs) ->
  (forall i, i <> b -> ~ In i (ch n) -> inx (b_ib bs') i = inx (b_ib bs) i) ->
  name_of bs b = Some n -> entry_of bs b = Some x ->
  NoDup L -> (forall i, In i L <-> i = b \/ In i (ch n)) ->
  lseg (inx (b_ib bs')) (hd_error L) L ->
  Forall2 (fun i y => entry_of bs i = Some y) L s ->
  smap (b_fn bs') (cupd (fun m => hd_error (ch m)) n (hd_error L)) ->
  brel bs' tools (cupd stack n s) (cupd ch n L) todo.
Proof.
  intros R Eo Et Eh Eb Hn Hname Hent NDL HL HS HF Hfn.
  destruct R as [R1 R2 R3 R4 R5 R6 R7 R8 R9 R10 R11].
  assert (Hent' : forall i, entry_of bs' i = entry_of bs i) by (intros; apply buser_entry; auto).
  assert (Hname' : forall i, name_of bs' i = name_of bs i) by (intros; apply buser_name; auto).
  assert (Elen : length (b_ib bs') = length (b_ib bs)) by (eapply map_eq_length; eauto).
  assert (Hch : forall m i, In i (ch m) -> m <> n -> ~ In i (ch n) /\ i <> b).
  { intros m i Hi Hm. split.
    - intros Hi2. pose proof (R7 _ _ Hi). pose proof (R7 _ _ Hi2). congruence.
    - intros ->. destruct (R8 b (or_introl eq_refl)) as [_ H]. exact (H m Hi). }
  constructor.
  - rewrite Eo. auto.
  - rewrite Eo. auto.
  - intros i Hi. rewrite Hent'. apply R3. rewrite <- Elen. auto.
  - intros m. destruct (cstr_dec m n) as [->|Hm].
    + rewrite !cupd_eq. eapply Forall2_impl_In; [|exact HF]. intros i y _ Hy. rewrite Hent'. auto.
    + rewrite !cupd_neq by auto. eapply Forall2_impl_In; [|exact (R4 m)]. intros i y _ Hy. rewrite Hent'. auto.
  - intros m. destruct (cstr_dec m n) as [->|Hm].
    + rewrite !cupd_eq. auto.
    + rewrite !cupd_neq by auto. eapply lseg_ext; [|exact (R5 m)]. intros i Hi. destruct (Hch m i Hi Hm). apply Hn; auto.
  - intros m. destruct (cstr_dec m n) as [->|Hm]; [rewrite cupd_eq|rewrite cupd_neq by auto]; auto.
  - intros m i Hi. rewrite Hname'. destruct (cstr_dec m n) as [->|Hm].
    + rewrite cupd_eq in Hi. apply HL in Hi. destruct Hi as [->|Hi]; auto.
    + rewrite cupd_neq in Hi by auto. auto.
  - intros i Hi. inversion R9; subst. destruct (R8 i (or_intror Hi)) as [A B]. assert (Hib : i <> b) by (intros ->; auto). split.
    + rewrite Hn; auto.
    + intros m Hm. destruct (cstr_dec m n) as [->|Hmn].
      * rewrite cupd_eq in Hm. apply HL in Hm. destruct Hm as [->|Hm]; [auto|]. exact (B _ Hm).
      * rewrite cupd_neq in Hm by auto. exact (B _ Hm).
  - inversion R9; auto.
  - intros i ib Hi. destruct (map_nth_eq buser _ _ i ib (eq_sym Eb) Hi) as (ib0 & Hi0 & E0). unfold buser in E0.
    destruct (R10 i ib0 Hi0) as (j & Hj1 & Hj2). exists j. rewrite Eh, Elen. split; [|auto]. congruence.
  - eapply smap_ext; [|exact Hfn]. intros m. cbn. destruct (cstr_dec m n) as [->|Hm]; [rewrite !cupd_eq|rewrite !cupd_neq by auto]; reflexivity.
Qed.

Lemma wrel_insert bs bs' orig ch todo b n L :
  wrel bs orig ch (b :: todo) ->
  b_handles bs' = b_handles bs ->
  map buser (b_ib bs') = map buser (b_ib bs) ->
  NoDup (b :: todo) -> (forall m, ~ In b (ch m)) -> (forall m i, In i (ch m) -> In i (ch n) -> m = n) ->
  (forall i m, In i todo -> ~ In i (ch m)) ->
  (forall i, i <> b -> ~ In i (ch n) -> wee (b_ib bs') i = wee (b_ib bs) i) ->
  (forall i, In i L <-> i = b \/ In i (ch n)) ->
  links (b_ib bs') L (orig n) ->
  wrel bs' orig (cupd ch n L) todo.
Proof.
  intros [W1 W2 W3 W4] Eh Eb ND Hb Hdis Htc Hw HL HK. inversion ND; subst. constructor.
  - intros i ib Hi. destruct (map_nth_eq buser _ _ i ib (eq_sym Eb) Hi) as (ib0 & Hi0 & E0). unfold buser in E0.
    rewrite Eh. assert (E : ib_user ib = ib_user ib0) by congruence. rewrite E. auto.
  - intros m. destruct (cstr_dec m n) as [->|Hm]; [rewrite cupd_eq; auto|]. rewrite cupd_neq by auto.
    eapply links_ext; [| |exact (W2 m)].
    + intros i Hi. apply Hw; [intros ->; exact (Hb _ Hi)|]. intros Hi2. apply Hm. eauto.
    + intros i Hi. apply buser_wrp; auto.
  - intros i Hi. rewrite Hw; [apply W3; right; auto|intros ->; auto|]. apply Htc; auto.
  - intros i Hi. rewrite (map_eq_length _ _ _ Eb) in Hi. destruct (W4 i Hi) as [[<-|Hx]|[m Hm]].
    + right. exists n. rewrite cupd_eq. apply HL. auto.
    + left; auto.
    + right. destruct (cstr_dec m n) as [->|Hmn]; [exists n; rewrite cupd_eq; apply HL; auto|exists m; rewrite cupd_neq; auto].
Qed.

(** *** order_loop *)
Lemma order_loop_spec bs tools x : (exists l, tools_ok (b_tools bs) l) -> tool_prios (ts_heap (b_tools bs)) = tools ->
  forall l s cur h fuel, lseg (inx (b_ib bs)) (Some cur) (cur :: l) -> Forall2 (fun i y => entry_of bs i = Some y) (cur :: l) (h :: s) ->
    (length l < fuel)%nat ->
  (exists l1 c l2 s1 sc s2, cur :: l = l1 ++ c :: l2 /\ h :: s = s1 ++ sc :: s2 /\ length l1 = length s1 /\
     order_loop fuel bs (en_wrapper x) (prio_of tools (en_tool x)) cur = Ok (Some c) /\
     ins_walk tools x h s = s1 ++ sc :: x :: s2) \/
  (order_loop fuel bs (en_wrapper x) (prio_of tools (en_tool x)) cur = Ok None /\ ins_walk tools x h s = h :: s).
Proof.
  intros TO TP. induction l as [|nx r IH]; intros s cur h fuel HL HF Hf; destruct fuel as [|f]; try (cbn in Hf; lia).
  - inversion HF as [|? ? ? ? He HF']; subst. inversion HF'; subst. cbn in HL. destruct HL as (_ & q & H1 & ->).
    unfold inx in H1. destruct (nth_error (b_ib bs) cur) as [ib|] eqn:E; [|discriminate]. injection H1 as H1.
    left. exists [], cur, [], [], h, []. cbn [order_loop]. rewrite (deref_Ok _ _ _ E). cbn [bind]. rewrite H1. auto.
  - inversion HF as [|? ? ? ? He HF']; subst. inversion HF' as [|? y ? s' He2 HF2]; subst.
    cbn in HL. destruct HL as (_ & q & H1 & -> & HL).
    unfold inx in H1. destruct (nth_error (b_ib bs) cur) as [ib|] eqn:E; [|discriminate]. injection H1 as H1.
    cbn [order_loop]. rewrite (deref_Ok _ _ _ E). cbn [bind]. rewrite H1.
    rewrite (entry_priority _ _ _ _ TO eq_refl He2). cbn [bind ins_walk].
    destruct (entry_user _ _ _ He) as (ib0 & E0 & Ew & _). assert (ib0 = ib) by congruence. subst ib0. rewrite Ew.
    destruct (Z.ltb_spec (prio_of (tool_prios (ts_heap (b_tools bs))) (en_tool y)) (prio_of (tool_prios (ts_heap (b_tools bs))) (en_tool x))).
    + left. exists [], cur, (nx :: r), [], h, (y :: s'). auto.
    + destruct (Z.eqb_spec (en_wrapper h) (en_wrapper x)); [right; auto|].
      destruct (IH s' nx y f) as [(l1 & c & l2 & s1 & sc & s2 & A1 & A2 & A3 & A4 & A5)|[A1 A2]].
      * cbn. destruct HL as (q2 & B1 & B2). eauto.
      * auto.
      * cbn in Hf. lia.
      * left. exists (cur :: l1), c, l2, (h :: s1), sc, s2. rewrite A1, A2, A5. cbn. auto.
      * right. rewrite A2. auto.
Qed.

(** *** place_binding *)
Lemma set_wrappee_Ok bs h i v : b_handles bs h = Some i -> set_wrappee bs h v = Ok (set_ib (upd (b_ib bs) i (set_iwrappee v)) bs).
Proof. intros H. unfold set_wrappee. rewrite H. reflexivity. Qed.

Lemma Forall2_app_r {A B} (R : A -> B -> Prop) l1 l2 s1 s2 : length l1 = length s1 -> Forall2 R (l1 ++ l2) (s1 ++ s2) -> Forall2 R l1 s1 /\ Forall2 R l2 s2.
Proof.
  revert s1. induction l1 as [|a r IH]; intros [|b s1] E H; cbn in *; try discriminate; [auto|].
  inversion H; subst. destruct (IH s1) as [A1 A2]; auto.
Qed.

Lemma Forall2_cons_inv {A B} (R : A -> B -> Prop) a l b s : Forall2 R (a :: l) (b :: s) -> R a b /\ Forall2 R l s.
Proof. intros H. inversion H; auto. Qed.

(** what place_binding does, with or without the wrappees being in order *)
Lemma place_binding_spec bs tools stack ch todo b n x :
  brel bs tools stack ch (b :: todo) -> name_of bs b = Some n -> entry_of bs b = Some x ->
  exists bs' ch' r,
    place_binding bs b n (en_wrapper x) (prio_of tools (en_tool x)) = Ok (bs', r) /\
    b_tools bs' = b_tools bs /\ b_tables bs' = b_tables bs /\ b_nf bs' = b_nf bs /\ b_handles bs' = b_handles bs /\ b_all bs' = b_all bs /\
    map buser (b_ib bs') = map buser (b_ib bs) /\
    brel bs' tools (cupd stack n (ins_c tools x (stack n))) ch' todo /\
    (forall m, m <> n -> ch' m = ch m) /\
    (forall i, In i (ch n) -> In i (ch' n)) /\ ch' n <> [] /\
    need_lookup r = (match stack n with [] => true | _ => false end) /\
    (need_binding r = true -> hd_error (ch' n) = Some b /\
       match stack n with [] => True | h :: _ => prio_of tools (en_tool h) < prio_of tools (en_tool x) end) /\
    (need_binding r = false -> hd_error (ch' n) = hd_error (ch n)) /\
    (stack n = [] -> ch' n = [b] /\ need_binding r = true /\ b_ib bs' = b_ib bs) /\
    (forall orig, wrel bs orig ch (b :: todo) -> ~ In (en_wrapper x) (map en_wrapper (stack n)) -> (stack n = [] -> orig n = None) ->
       wrel bs' orig ch' todo).
Proof.
  intros R Hn He. pose proof R as R0. destruct R as [R1 R2 R3 R4 R5 R6 R7 R8 R9 R10 R11].
  unfold place_binding. rewrite (smap_lookup _ _ n R11). cbn [bind].
  destruct (R8 b (or_introl eq_refl)) as [Hbn Hbch].
  assert (Hdis : forall m i, In i (ch m) -> In i (ch n) -> m = n).
  { intros m i H1 H2. pose proof (R7 _ _ H1). pose proof (R7 _ _ H2). congruence. }
  assert (Htc : forall i m, In i todo -> ~ In i (ch m)) by (intros i m Hi; apply (R8 i (or_intror Hi))).
  destruct (entry_user _ _ _ He) as (ib & Eib & Ew & Ehd).
  pose proof (R4 n) as HF. pose proof (R5 n) as HL.
  destruct (ch n) as [|h r] eqn:Ec; cbn [hd_error].
  { (* first binding of this name *)
    inversion HF as [Hnil Es|]; subst. rewrite <- Es in *.
    destruct (smap_add (b_fn bs) _ n b R11) as (t & Ht & Hmap); [rewrite Ec; reflexivity|].
    rewrite Ht. cbn [bind]. exists (set_fn t bs), (cupd ch n [b]), (mkRWO true true).
    repeat (split; [reflexivity|]). split; [|spl].
    - eapply (brel_insert bs _ _ stack ch todo b n x); [exact R0|..]; try reflexivity; auto.
      + constructor; [cbn; tauto|constructor].
      + intros i. cbn. split; [intros [->|[]]; auto|intros [->|H]; [auto|rewrite Ec in H; contradiction]].
      + cbn. split; [auto|]. exists None. auto.
      + repeat constructor. auto.
    - intros m Hm. rewrite cupd_neq; auto.
    - intros i [].
    - rewrite cupd_eq. discriminate.
    - reflexivity.
    - intros _. rewrite cupd_eq. auto.
    - cbn. discriminate.
    - intros _. rewrite cupd_eq. auto.
    - intros orig W _ Ho. eapply (wrel_insert bs); [exact W|..]; try reflexivity; auto.
      + intros m i H1 H2. rewrite Ec in H2. contradiction.
      + intros i. cbn. split; [intros [->|[]]; auto|intros [->|H]; [auto|rewrite Ec in H; contradiction]].
      + cbn. split; [|auto]. rewrite Ho by auto. apply (wr_todo _ _ _ _ W). left. auto. }
  inversion HF as [|? hx ? sr Hh HF' Es1 Es]; subst. rewrite <- Es in *. clear Es.
  rewrite (entry_priority bs _ h hx R1 eq_refl Hh). cbn [bind].
  set (tools := tool_prios (ts_heap (b_tools bs))) in *.
  destruct (entry_user _ _ _ Hh) as (hb & Ehb & Ehw & Ehh).
  assert (Hhb : h <> b) by (intros ->; apply (Hbch n); rewrite Ec; left; auto).
  cbn [ins_c]. destruct (Z.ltb_spec (prio_of tools (en_tool hx)) (prio_of tools (en_tool x))) as [Lt|Ge].
  - (* at head *)
    unfold insert_at_head. set (bs1 := set_ib (upd (b_ib bs) b (set_inext (Some h))) bs).
    assert (E1 : nth_error (b_ib bs1) b = Some (set_inext (Some h) ib)).
    { unfold bs1. cbn. rewrite nth_error_upd, Nat.eqb_refl, Eib. reflexivity. }
    assert (E2 : nth_error (b_ib bs1) h = Some hb).
    { unfold bs1. cbn. rewrite nth_error_upd. destruct (Nat.eqb_spec b h); [congruence|auto]. }
    rewrite (deref_Ok _ _ _ E1), (deref_Ok _ _ _ E2). cbn [bind set_inext ib_user].
    destruct (R10 _ _ Eib) as (j & Hj & Hjl).
    rewrite (set_wrappee_Ok bs1 _ j) by exact Hj. cbn [bind].
    set (bs2 := set_ib (upd (b_ib bs1) j (set_iwrappee (Ptr (ub_wrapper (ib_user hb))))) bs1).
    assert (Enm : ub_name (ib_user ib) = n). { unfold name_of in Hn. rewrite Eib in Hn. cbn in Hn. congruence. }
    rewrite Enm.
    destruct (smap_remove (b_fn bs2) _ n R11) as (t1 & Ht1 & M1). rewrite Ht1. cbn [bind].
    destruct (smap_add t1 _ n b M1) as (t2 & Ht2 & M2); [apply cupd_eq|]. rewrite Ht2. cbn [bind].
    exists (set_fn t2 bs2), (cupd ch n (b :: h :: r)), (mkRWO false true).
    assert (Eu : map buser (b_ib bs2) = map buser (b_ib bs)).
    { unfold bs2, bs1. cbn. rewrite buser_wrappee, buser_next. reflexivity. }
    assert (HinL : forall i, In i (b :: h :: r) <-> i = b \/ In i (ch n)).
    { intros i. rewrite Ec. cbn. intuition auto. }
    assert (Hix : forall i, inx (b_ib bs2) i = if Nat.eqb b i then Some (Some h) else inx (b_ib bs) i).
    { intros i. unfold bs2, bs1. cbn. rewrite inx_upd_wrappee, inx_upd_next. destruct (Nat.eqb_spec b i); [subst; rewrite Eib|]; reflexivity. }
    repeat (split; [first [reflexivity|exact Eu]|]). split; [|spl].
    + eapply (brel_insert bs _ _ stack ch todo b n x); [exact R0|..]; try reflexivity; auto.
      * intros i Hi _. cbn [set_fn b_ib]. rewrite Hix. destruct (Nat.eqb_spec b i); congruence.
      * constructor; [intros Hx; apply (Hbch n); rewrite Ec; auto|]. rewrite <- Ec. auto.
      * cbn [set_fn b_ib hd_error]. eapply (lseg_cons_new (inx (b_ib bs))); [exact HL|intros Hx; apply (Hbch n); rewrite Ec; auto| |].
        -- intros i Hi. rewrite Hix. destruct (Nat.eqb_spec b i); congruence.
        -- rewrite Hix, Nat.eqb_refl. reflexivity.
      * eapply smap_ext; [|exact M2]. intros m. destruct (cstr_dec m n) as [->|Hm]; [rewrite !cupd_eq|rewrite !cupd_neq by auto]; reflexivity.
    + intros m Hm. rewrite cupd_neq; auto.
    + intros i Hi. rewrite cupd_eq. right; auto.
    + rewrite cupd_eq. discriminate.
    + reflexivity.
    + intros _. rewrite cupd_eq. auto.
    + cbn. discriminate.
    + discriminate.
    + intros orig W _ _.
      assert (j = b). { pose proof (wr_handles _ _ _ _ W _ _ Eib). congruence. } subst j.
      assert (Hwe : forall i, wee (b_ib bs2) i = if Nat.eqb b i then Some (Ptr (ub_wrapper (ib_user hb))) else wee (b_ib bs) i).
      { intros i. unfold bs2, bs1. cbn. rewrite wee_upd_wrappee. destruct (Nat.eqb_spec b i).
        - subst. rewrite nth_error_upd, Nat.eqb_refl, Eib. reflexivity.
        - rewrite wee_upd_next. reflexivity. }
      eapply (wrel_insert bs); [exact W|..]; try reflexivity; auto.
      * intros m i H1 H2. rewrite Ec in H2. eauto.
      * intros i Hi _. cbn [set_fn b_ib]. rewrite Hwe. destruct (Nat.eqb_spec b i); congruence.
      * cbn [set_fn b_ib]. cbn [links]. split.
        -- rewrite Hwe, Nat.eqb_refl. f_equal. f_equal. rewrite (buser_wrp _ _ h Eu). unfold wrp. rewrite Ehb. reflexivity.
        -- change (links (b_ib bs2) (h :: r) (orig n)). rewrite <- Ec. eapply links_ext; [| |exact (wr_links _ _ _ _ W n)].
           ++ intros i Hi. rewrite Hwe. destruct (Nat.eqb_spec b i); [subst i; destruct (Hbch n Hi)|reflexivity].
           ++ intros i Hi. apply buser_wrp; auto.
  - (* further in *)
    assert (Hlen : (length r < S (length (b_ib bs)))%nat).
    { assert (incl (h :: r) (seq 0 (length (b_ib bs)))).
      { intros i Hi. apply in_seq. rewrite <- Ec in Hi. pose proof (R7 _ _ Hi) as H0. unfold name_of in H0.
        destruct (nth_error (b_ib bs) i) eqn:E0; [|discriminate]. apply nth_error_Some_lt in E0. lia. }
      pose proof (R6 n) as ND0. rewrite Ec in ND0. pose proof (NoDup_incl_length ND0 H) as H1. rewrite seq_length in H1. cbn in H1. lia. }
    destruct (order_loop_spec bs tools x R1 eq_refl r sr h hx _ HL HF Hlen) as [(l1 & c & l2 & s1 & sc & s2 & A1 & A2 & A3 & A4 & A5)|[A1 A2]].
    + (* insert after c *)
      rewrite A4. cbn [bind]. unfold insert_after_pos. rewrite (deref_Ok _ _ _ Eib).
      assert (Hc : In c (ch n)) by (rewrite Ec, A1; apply in_elt).
      assert (Hcb : c <> b) by (intros ->; exact (Hbch n Hc)).
      pose proof HF as HF0. rewrite A1, A2 in HF0.
      destruct (Forall2_app_r _ _ _ _ _ A3 HF0) as [F1 F2]. apply Forall2_cons_inv in F2. destruct F2 as [Hsc F3].
      destruct (entry_user _ _ _ Hsc) as (cb & Ecb & Ecw & Ech).
      rewrite (deref_Ok _ _ _ Ecb). cbn [bind].
      destruct (R10 _ _ Eib) as (j & Hj & Hjl). rewrite (set_wrappee_Ok bs _ j) by exact Hj. cbn [bind].
      destruct (R10 _ _ Ecb) as (k & Hk & Hkl). set (bs1 := set_ib (upd (b_ib bs) j (set_iwrappee (ib_wrappee cb))) bs).
      rewrite (set_wrappee_Ok bs1 _ k) by exact Hk. cbn [bind].
      set (bs2 := set_ib (upd (b_ib bs1) k (set_iwrappee (Ptr (ub_wrapper (ib_user ib))))) bs1).
      assert (Eu2 : map buser (b_ib bs2) = map buser (b_ib bs)).
      { unfold bs2, bs1. cbn. rewrite !buser_wrappee. reflexivity. }
      assert (Hix2 : forall i, inx (b_ib bs2) i = inx (b_ib bs) i).
      { intros i. unfold bs2, bs1. cbn. rewrite !inx_upd_wrappee. reflexivity. }
      destruct (map_nth_eq buser _ _ c cb Eu2 Ecb) as (cb2 & Ecb2 & Eu3). rewrite (deref_Ok _ _ _ Ecb2). cbn [bind].
      destruct (map_nth_eq buser _ _ b ib Eu2 Eib) as (ib2 & Eib2 & Eu4).
      assert (Enx : ib_next cb2 = ib_next cb).
      { pose proof (Hix2 c) as Hc2. unfold inx in Hc2. rewrite Ecb2, Ecb in Hc2. cbn in Hc2. congruence. }
      set (bs3 := set_ib (upd (b_ib bs2) b (set_inext (ib_next cb2))) bs2).
      eexists (set_ib (upd (b_ib bs3) c (set_inext (Some b))) bs3), (cupd ch n (l1 ++ c :: b :: l2)), (mkRWO false false).
      set (bs4 := set_ib (upd (b_ib bs3) c (set_inext (Some b))) bs3).
      assert (Eu : map buser (b_ib bs4) = map buser (b_ib bs)).
      { unfold bs4, bs3. cbn. rewrite !buser_next. exact Eu2. }
      assert (Hix : forall i, inx (b_ib bs4) i = if Nat.eqb c i then Some (Some b) else if Nat.eqb b i then Some (ib_next cb) else inx (b_ib bs) i).
      { intros i. change (b_ib bs4) with (upd (upd (b_ib bs2) b (set_inext (ib_next cb2))) c (set_inext (Some b))). rewrite !inx_upd_next. destruct (Nat.eqb_spec c i).
        - subst i. rewrite nth_error_upd. destruct (Nat.eqb_spec b c); [congruence|]. rewrite Ecb2. reflexivity.
        - destruct (Nat.eqb_spec b i); [subst i; rewrite Eib2; cbn; congruence|auto]. }
      assert (HinL : forall i, In i (l1 ++ c :: b :: l2) <-> i = b \/ In i (ch n)).
      { intros i. rewrite Ec, A1. rewrite !in_app_iff. cbn. intuition auto. }
      assert (ND1 : NoDup (l1 ++ c :: l2)) by (rewrite <- A1, <- Ec; auto).
      assert (Hb1 : ~ In b (l1 ++ c :: l2)) by (rewrite <- A1, <- Ec; auto).
      split; [reflexivity|]. repeat (split; [first [reflexivity|exact Eu]|]). split; [|spl].
      * rewrite A5. eapply (brel_insert bs _ _ stack ch todo b n x); [exact R0|..]; try reflexivity; auto.
        -- intros i Hi1 Hi2. rewrite Hix. destruct (Nat.eqb_spec c i); [subst; contradiction|]. destruct (Nat.eqb_spec b i); [congruence|auto].
        -- apply (Permutation_NoDup (l:=b :: l1 ++ c :: l2)); [|constructor; auto].
           transitivity (l1 ++ b :: c :: l2); [apply Permutation_middle|apply Permutation_app_head, perm_swap].
        -- replace (hd_error (l1 ++ c :: b :: l2)) with (hd_error (h :: r)) by (rewrite A1; destruct l1; reflexivity).
           rewrite A1 in HL |- *. eapply (lseg_insert (inx (b_ib bs)) _ _ l1 c l2 b (ib_next cb)); auto.
           ++ intros i Hi1 Hi2. rewrite Hix. destruct (Nat.eqb_spec c i); [congruence|]. destruct (Nat.eqb_spec b i); congruence.
           ++ unfold inx. rewrite Ecb. reflexivity.
           ++ rewrite Hix. destruct (Nat.eqb_spec c b); [congruence|]. rewrite Nat.eqb_refl. reflexivity.
           ++ rewrite Hix, Nat.eqb_refl. reflexivity.
        -- apply Forall2_app; [auto|]. repeat (constructor; auto).
        -- eapply smap_ext; [|exact R11]. intros m. cbn. destruct (cstr_dec m n) as [->|Hm]; [rewrite cupd_eq|rewrite cupd_neq; auto].
           rewrite Ec, A1. destruct l1; reflexivity.
      * intros m Hm. rewrite cupd_neq; auto.
      * intros i Hi. rewrite cupd_eq. apply HinL. rewrite Ec. auto.
      * rewrite cupd_eq. destruct l1; discriminate.
      * reflexivity.
      * cbn. discriminate.
      * intros _. rewrite cupd_eq. change (Some h) with (hd_error (h :: r)). rewrite A1. destruct l1; reflexivity.
      * discriminate.
      * intros orig W _ _.
        assert (j = b). { pose proof (wr_handles _ _ _ _ W _ _ Eib). congruence. } subst j.
        assert (k = c). { pose proof (wr_handles _ _ _ _ W _ _ Ecb). congruence. } subst k.
        assert (Hwe : forall i, wee (b_ib bs4) i = if Nat.eqb c i then Some (Ptr (ub_wrapper (ib_user ib))) else if Nat.eqb b i then Some (ib_wrappee cb) else wee (b_ib bs) i).
        { intros i. unfold bs4, bs3, bs2, bs1. cbn. rewrite !wee_upd_next, !wee_upd_wrappee. destruct (Nat.eqb_spec c i).
          - subst i. rewrite nth_error_upd. destruct (Nat.eqb_spec b c); [congruence|]. rewrite Ecb. reflexivity.
          - destruct (Nat.eqb_spec b i); [subst i; rewrite Eib; reflexivity|auto]. }
        eapply (wrel_insert bs); [exact W|..]; try reflexivity; auto.
        -- intros m i H1 H2. rewrite Ec in H2. eauto.
        -- intros i Hi1 Hi2. rewrite Hwe. destruct (Nat.eqb_spec c i); [subst; contradiction|]. destruct (Nat.eqb_spec b i); [congruence|auto].
        -- eapply (links_insert (b_ib bs)); auto.
           ++ rewrite <- A1, <- Ec. apply (wr_links _ _ _ _ W).
           ++ intros i. apply buser_wrp; auto.
           ++ intros i Hi1 Hi2. rewrite Hwe. destruct (Nat.eqb_spec c i); [congruence|]. destruct (Nat.eqb_spec b i); congruence.
           ++ rewrite Hwe, Nat.eqb_refl. unfold wrp. rewrite Eib. reflexivity.
           ++ rewrite Hwe. destruct (Nat.eqb_spec c b); [congruence|]. rewrite Nat.eqb_refl. unfold wee. rewrite Ecb. reflexivity.
    + (* skipped *)
      rewrite A1. cbn [bind]. exists bs, ch, (mkRWO false false).
      repeat (split; [reflexivity|]). split; [|spl].
      * rewrite A2. constructor; auto.
        -- intros m. destruct (cstr_dec m n) as [->|Hm]; [rewrite cupd_eq, Ec; auto|rewrite cupd_neq; auto].
        -- intros i Hi. apply R8. right; auto.
        -- inversion R9; auto.
      * auto.
      * rewrite Ec. auto.
      * rewrite Ec. discriminate.
      * reflexivity.
      * cbn. discriminate.
      * rewrite Ec. auto.
      * discriminate.
      * intros orig W Hw _. exfalso. rewrite (ins_walk_place tools x sr hx Hw) in A2 by lia.
        assert (Hl : forall s0, length (place tools x s0) = S (length s0)).
        { induction s0 as [|y s0 IHs]; cbn; [auto|]. destruct (_ <? _); cbn; auto. }
        apply (f_equal (@length entry)) in A2. rewrite Hl in A2. lia.
Qed.
