(** Proofs about FailModel: what an operation does when gotcha_malloc returns NULL. *)
From Verif Require Import Base ListFacts HashModel ElfModel ToolModel CoreModel FailModel.

(** [m] does what [o] does, unless an allocation fails, which ends in a write through NULL *)
Definition refines {A} (m : amon A) (o : outcome A) : Prop := forall al,
  (In false al /\ m al = Fault NullDeref) \/
  match o with
  | Ok a => exists used al', al = used ++ al' /\ ~ In false used /\ m al = Ok (a, al')
  | Fault f => m al = Fault f
  end.

Lemma refines_ret {A} (a : A) : refines (aret a) (Ok a).
Proof. intros al. right. exists [], al. auto. Qed.
Lemma refines_lift {A} (o : outcome A) : refines (alift o) o.
Proof. intros al. right. destruct o as [a|f]; [|reflexivity]. exists [], al. auto. Qed.
Lemma refines_bind {A B} (m : amon A) o (k : A -> amon B) k' : refines m o -> (forall a, o = Ok a -> refines (k a) (k' a)) -> refines (abind m k) (bind o k').
Proof.
  intros H K al. unfold abind. destruct (H al) as [(I & ->)|H1]; [left; auto|]. destruct o as [a|f]; cbn [bind].
  2:{ right. rewrite H1. reflexivity. }
  destruct H1 as (u & al' & -> & N & ->). cbn [bind]. destruct (K a eq_refl al') as [(I & E)|H2]; [left; split; [apply in_or_app; auto|exact E]|].
  right. destruct (k' a) as [b|f]; [|exact H2]. destruct H2 as (u' & al'' & -> & N' & E). exists (u ++ u'), al''. split; [apply app_assoc|]. split; [|exact E].
  intros I. apply in_app_or in I as [I|I]; auto.
Qed.
Lemma refines_unchecked : refines malloc_unchecked (Ok tt).
Proof.
  intros [|[] r].
  - right. exists [], []. auto.
  - right. exists [true], r. split; [auto|]. split; [intros [E|[]]; discriminate|reflexivity].
  - left. split; [left; reflexivity|reflexivity].
Qed.
(** a leading unchecked request *)
Lemma refines_unchecked_then {A} (m : amon A) o : refines m o -> refines (abind malloc_unchecked (fun _ => m)) o.
Proof. intros H. apply (refines_bind malloc_unchecked (Ok tt) _ (fun _ => o) refines_unchecked). auto. Qed.

Ltac rstep := first
  [ apply refines_ret | apply refines_lift
  | apply refines_bind; [|intros ? ?] ].

Lemma grow_a {K D} (t : htable K D) n : refines (grow_hashtable_a t n) (grow_hashtable t n).
Proof. apply refines_unchecked_then. apply refines_lift. Qed.
Lemma addto_a {K D} (t : htable K D) k d : refines (addto_hashtable_a t k d) (addto_hashtable t k d).
Proof.
  unfold addto_hashtable_a, addto_hashtable. apply refines_bind; [apply refines_lift|]. intros n _. apply refines_bind.
  - destruct (n =? ht_size t); [apply refines_ret|apply grow_a].
  - intros t' _. destruct (ht_hashfunc t'); [|apply refines_lift]. apply refines_bind; [apply refines_lift|]. intros [t'' i] _. apply refines_ret.
Qed.
(** create_hashtable whose failure is followed by a use of the table *)
Lemma create_used_a {K D} ps n (hf : K -> Z) cmp :
  refines (abind (create_hashtable_a (D := D) ps n hf cmp) (fun t => match t with Some t => aret t | None => alift (Fault NullDeref) end)) (create_hashtable ps n hf cmp).
Proof.
  unfold create_hashtable_a. intros al. unfold abind, alift at 1. destruct (create_hashtable ps n hf cmp) as [t|f]; cbn [bind]; [|right; reflexivity].
  destruct al as [|[] r]; cbn.
  - right. exists [], []. auto.
  - right. exists [true], r. split; [auto|]. split; [intros [E|[]]; discriminate|reflexivity].
  - left. auto.
Qed.
Lemma add_library_refines l m : refines (add_library_a l m) (add_library l m).
Proof.
  unfold add_library_a, add_library. apply refines_unchecked_then. apply refines_bind; [apply addto_a|]. intros t _. apply refines_ret.
Qed.
Lemma track_a l m : refines (track_library_a l m) (track_library l m).
Proof. unfold track_library_a, track_library. apply refines_bind; [apply refines_lift|]. intros [i|] _; [apply refines_ret|apply add_library_refines]. Qed.
Lemma prepare_loop_refines e name maps : forall l, refines (prepare_loop_a e maps name l) (prepare_loop e maps name l).
Proof.
  induction maps as [|m r IH]; intros l; cbn [prepare_loop_a prepare_loop]; [apply refines_ret|]. apply refines_bind; [apply track_a|]. intros [l' i] _.
  apply refines_bind; [apply refines_lift|]. intros [a|] _; [apply refines_ret|apply IH].
Qed.
Lemma prepare_symbol_refines e st b : refines (prepare_symbol_a e st b) (prepare_symbol e st b).
Proof.
  unfold prepare_symbol_a, prepare_symbol. apply refines_bind; [apply refines_lift|]. intros ib _. apply refines_bind; [apply prepare_loop_refines|]. intros [l r] _.
  destruct r; [|apply refines_ret]. apply refines_bind; [apply refines_lift|]. intros bs _. apply refines_ret.
Qed.
Lemma insert_at_head_refines bs b h : refines (insert_at_head_a bs b h) (insert_at_head bs b h).
Proof.
  unfold insert_at_head_a, insert_at_head. do 3 (apply refines_bind; [apply refines_lift|intros ? _]). apply refines_bind; [apply refines_lift|]. intros [t x] _.
  apply refines_bind; [apply addto_a|]. intros t' _. apply refines_ret.
Qed.
Lemma place_binding_refines bs b n w p : refines (place_binding_a bs b n w p) (place_binding bs b n w p).
Proof.
  unfold place_binding_a, place_binding. apply refines_bind; [apply refines_lift|]. intros [h|] _.
  - apply refines_bind; [apply refines_lift|]. intros hp _. destruct (hp <? p).
    + apply refines_bind; [apply insert_at_head_refines|]. intros ? _. apply refines_ret.
    + apply refines_bind; [apply refines_lift|]. intros [c|] _; [|apply refines_ret]. apply refines_bind; [apply refines_lift|]. intros ? _. apply refines_ret.
  - apply refines_bind; [apply addto_a|]. intros ? _. apply refines_ret.
Qed.
Lemma update_library_got_refines e ibs t m rest lp : refines (update_library_got_a e ibs t m rest lp) (update_library_got e ibs t m rest lp).
Proof.
  unfold update_library_got_a, update_library_got. destruct lp as [l p]. apply refines_bind; [apply track_a|]. intros [l' i] _. apply refines_lift.
Qed.
Lemma update_gots_refines e ibs t maps : forall lp, refines (update_gots_a e ibs t maps lp) (update_gots e ibs t maps lp).
Proof.
  induction maps as [|m r IH]; intros lp; cbn [update_gots_a update_gots]; [apply refines_ret|]. apply refines_bind; [apply update_library_got_refines|]. intros lp' _. apply IH.
Qed.
Lemma update_all_refines e t st : refines (update_all_library_gots_a e t st) (update_all_library_gots e t st).
Proof. unfold update_all_library_gots_a, update_all_library_gots. apply refines_bind; [apply update_gots_refines|]. intros [l p] _. apply refines_ret. Qed.
Lemma fill_hash_refines ubs : forall t i, refines (fill_hash_a t ubs i) (fill_hash t ubs i).
Proof. induction ubs as [|u r IH]; intros t i; cbn [fill_hash_a fill_hash]; [apply refines_ret|]. apply refines_bind; [apply addto_a|]. intros t' _. apply IH. Qed.

(** [m] does what [o] does if no allocation fails *)
Definition agrees {A} (m : amon A) (o : outcome A) : Prop := forall al, ~ In false al ->
  match o with
  | Ok a => exists al', ~ In false al' /\ m al = Ok (a, al')
  | Fault f => m al = Fault f
  end.
Lemma refines_agrees {A} (m : amon A) o : refines m o -> agrees m o.
Proof.
  intros H al N. destruct (H al) as [[I _]|H1]; [contradiction|]. destruct o; [|exact H1]. destruct H1 as (u & al' & -> & _ & E). exists al'. split; [|exact E].
  intros I. apply N. apply in_or_app. auto.
Qed.
Lemma agrees_bind {A B} (m : amon A) o (k : A -> amon B) k' : agrees m o -> (forall a, o = Ok a -> agrees (k a) (k' a)) -> agrees (abind m k) (bind o k').
Proof.
  intros H K al N. unfold abind. specialize (H al N). destruct o as [a|f]; cbn [bind]; [|rewrite H; reflexivity]. destruct H as (al' & N' & ->). cbn [bind]. apply (K a eq_refl al' N').
Qed.

(** the rest of gotcha_wrap, for both relations *)
Section Rel.
Variable R : forall A, amon A -> outcome A -> Prop.
Hypothesis R_ref : forall A (m : amon A) o, refines m o -> R A m o.
Hypothesis R_bind : forall A B (m : amon A) o (k : A -> amon B) k', R A m o -> (forall a, o = Ok a -> R B (k a) (k' a)) -> R B (abind m k) (bind o k').

Lemma rewrite_R e rec rec' st b :
  (forall ib, deref (b_ib (s_b st)) b = Ok ib -> R _ (wrap_main_a e rec st (ub_name (ib_user ib))) (wrap_main e rec' st (ub_name (ib_user ib)))) ->
  R _ (rewrite_wrapper_orders_a e rec st b) (rewrite_wrapper_orders e rec' st b).
Proof.
  intros W. unfold rewrite_wrapper_orders_a, rewrite_wrapper_orders. apply R_bind; [apply R_ref, refines_lift|]. intros ib Ei. apply R_bind; [apply R_ref, refines_lift|]. intros p _.
  apply R_bind; [apply W; exact Ei|]. intros st1 _. apply R_bind; [apply R_ref, place_binding_refines|]. intros [bs r] _. apply R_ref, refines_ret.
Qed.
Lemma wrap_one_R e rec rec' na b st pr :
  (forall ib, deref (b_ib (s_b st)) b = Ok ib -> R _ (wrap_main_a e rec st (ub_name (ib_user ib))) (wrap_main e rec' st (ub_name (ib_user ib)))) ->
  R _ (wrap_one_a e rec na b (st, pr)) (wrap_one e rec' na b (st, pr)).
Proof.
  intros W. unfold wrap_one_a, wrap_one. apply R_bind; [apply rewrite_R; exact W|]. intros [st1 r] _. apply R_ref. apply refines_bind; [apply refines_lift|]. intros ib _.
  apply refines_bind.
  - destruct (need_lookup r); [|apply refines_ret]. apply refines_bind; [apply prepare_symbol_refines|]. intros [st2 f] _. destruct f; [apply refines_ret|].
    apply refines_bind; [apply addto_a|]. intros t _. apply refines_ret.
  - intros [st2 pr2] _. destruct (need_binding r); [|apply refines_ret]. apply refines_bind.
    + destruct (pr_new pr2); [apply refines_ret|apply create_used_a].
    + intros t _. apply refines_bind; [apply addto_a|]. intros t' _. apply refines_ret.
Qed.
Lemma wrap_end_R e st pr : R _ (abind (match pr_new pr with Some t => update_all_library_gots_a e t st | None => aret st end)
     (fun st => aret (st, if negb (pr_not_found pr =? 0) then GOTCHA_FUNCTION_NOT_FOUND else GOTCHA_SUCCESS)))
   (bind (match pr_new pr with Some t => update_all_library_gots e t st | None => Ok st end)
     (fun st => Ok (st, if negb (pr_not_found pr =? 0) then GOTCHA_FUNCTION_NOT_FOUND else GOTCHA_SUCCESS))).
Proof. apply R_ref. apply refines_bind; [destruct (pr_new pr); [apply update_all_refines|apply refines_ret]|]. intros st' _. apply refines_ret. Qed.
End Rel.

(** ** When memory does not run out *)
Definition agrees_rec (rec : wrap_fun_a) (rec' : wrap_fun) : Prop := forall st ubs t, agrees (rec st ubs t) (rec' st ubs t).
Lemma agrees_ret {A} (a : A) : agrees (aret a) (Ok a).
Proof. apply refines_agrees, refines_ret. Qed.
Lemma agrees_lift {A} (o : outcome A) : agrees (alift o) o.
Proof. apply refines_agrees, refines_lift. Qed.
Lemma create_agrees {K D} ps n (hf : K -> Z) cmp : agrees (create_hashtable_a (D := D) ps n hf cmp) (bind (create_hashtable ps n hf cmp) (fun t => Ok (Some t))).
Proof.
  unfold create_hashtable_a. apply agrees_bind; [apply agrees_lift|]. intros t _ al N. destruct al as [|[] r]; [exists []; auto| |exfalso; apply N; left; reflexivity].
  exists r. split; [intros I; apply N; right; exact I|reflexivity].
Qed.
Lemma malloc_agrees : agrees malloc (Ok true).
Proof. intros [|[] r] N; [exists []; auto| |exfalso; apply N; left; reflexivity]. exists r. split; [intros I; apply N; right; exact I|reflexivity]. Qed.
Lemma agrees_eq {A} (m : amon A) o o' : agrees m o -> o = o' -> agrees m o'.
Proof. intros H <-. exact H. Qed.
Lemma bind_assoc {A B C} (o : outcome A) (f : A -> outcome B) (g : B -> outcome C) : bind (bind o f) g = bind o (fun a => bind (f a) g).
Proof. destruct o; reflexivity. Qed.

Lemma agrees_unchecked_then {A} (m : amon A) o : agrees m o -> agrees (abind malloc_unchecked (fun _ => m)) o.
Proof. intros H. apply (agrees_bind malloc_unchecked (Ok tt) _ (fun _ => o) (refines_agrees _ _ refines_unchecked)). auto. Qed.
Lemma agrees_malloc_then {A} (k : bool -> amon A) o : agrees (k true) o -> agrees (abind malloc k) o.
Proof. intros H. apply (agrees_bind malloc (Ok true) k (fun _ => o) malloc_agrees). intros a E. injection E as <-. exact H. Qed.
Lemma agrees_create_then {K D B} ps n (hf : K -> Z) cmp (k : option (htable K D) -> amon B) k' : (forall t, agrees (k (Some t)) (k' t)) ->
  agrees (abind (create_hashtable_a ps n hf cmp) k) (bind (create_hashtable ps n hf cmp) k').
Proof.
  intros H. eapply agrees_eq; [apply (agrees_bind _ _ _ (fun o => match o with Some t => k' t | None => Fault NullDeref end) (create_agrees ps n hf cmp))|].
  - intros a E. destruct (create_hashtable ps n hf cmp); [|discriminate E]. injection E as <-. apply H.
  - rewrite bind_assoc. reflexivity.
Qed.
(** a function that returns NULL on failure *)
Lemma agrees_some_then {A X B} (m : amon (A * option X)) o (k : A * option X -> amon B) k' :
  agrees m (do ' (a, x) <- o; Ok (a, Some x)) -> (forall a x, o = Ok (a, x) -> agrees (k (a, Some x)) (k' (a, x))) -> agrees (abind m k) (bind o k').
Proof.
  intros H K al N. unfold abind. specialize (H al N). destruct o as [[a x]|f]; cbn [bind] in *; [|rewrite H; reflexivity]. destruct H as (al' & N' & ->). cbn [bind]. exact (K a x eq_refl al' N').
Qed.

Lemma create_tool_agrees ps ts n : agrees (create_tool_a ps ts n) (do ' (ts, i) <- create_tool ps ts n; Ok (ts, Some i)).
Proof.
  unfold create_tool_a, create_tool. apply agrees_malloc_then. cbn [negb]. rewrite bind_assoc. apply agrees_create_then. intros t. rewrite bind_assoc.
  apply agrees_bind; [apply agrees_lift|]. intros ts' _. apply agrees_ret.
Qed.
Lemma get_or_create_agrees ps ts n : agrees (get_or_create_tool_a ps ts n) (do ' (ts, i) <- get_or_create_tool ps ts n; Ok (ts, Some i)).
Proof.
  unfold get_or_create_tool_a, get_or_create_tool. rewrite bind_assoc. apply agrees_bind; [apply agrees_lift|]. intros [i|] _; [apply agrees_ret|apply create_tool_agrees].
Qed.
Lemma set_priority_int_agrees ps ts n v : agrees (set_priority_int_a ps ts n v) (set_priority_int ps ts n v).
Proof.
  unfold set_priority_int_a, set_priority_int. apply agrees_some_then; [apply get_or_create_agrees|]. intros ts1 i _. apply agrees_some_then; [apply get_or_create_agrees|]. intros ts2 j _.
  apply agrees_bind; [apply agrees_lift|]. intros ts3 _. apply agrees_lift.
Qed.
Lemma add_binding_agrees e bs tool ubs : agrees (add_binding_to_tool_a e bs tool ubs) (do ' (bs, i) <- add_binding_to_tool e bs tool ubs; Ok (bs, Some i)).
Proof.
  unfold add_binding_to_tool_a, add_binding_to_tool. apply agrees_unchecked_then.
  apply agrees_malloc_then. cbn [negb andb]. destruct (fill_bindings (length (b_tables bs)) ubs (b_ib bs) (b_handles bs)) as [ibs hs]. rewrite bind_assoc.
  apply agrees_create_then. intros h. rewrite bind_assoc. apply agrees_bind; [apply refines_agrees, fill_hash_refines|]. intros h' _. rewrite bind_assoc.
  apply agrees_bind; [apply agrees_lift|]. intros t _. apply agrees_ret.
Qed.

Lemma wrap_main_agrees e rec rec' st n : agrees_rec rec rec' -> agrees (wrap_main_a e rec st n) (wrap_main e rec' st n).
Proof.
  intros H. unfold wrap_main_a, wrap_main. destruct (_ && _); [|apply agrees_ret]. apply agrees_bind; [apply H|]. intros [st1 c] _. apply agrees_bind; [apply H|]. intros [st2 c2] _. apply agrees_ret.
Qed.
Lemma wrap_loop_agrees e rec rec' na : agrees_rec rec rec' -> forall n b st pr, agrees (wrap_loop_a e rec na n b (st, pr)) (wrap_loop e rec' na n b (st, pr)).
Proof.
  intros H. induction n as [|n IH]; intros b st pr; cbn [wrap_loop_a wrap_loop]; [apply agrees_ret|]. apply agrees_bind.
  - apply (wrap_one_R (@agrees) (@refines_agrees) (@agrees_bind)). intros ib _. apply wrap_main_agrees. exact H.
  - intros [st1 pr1] _. apply IH.
Qed.
Lemma wrap_tool_agrees e rec rec' st ubs t : agrees_rec rec rec' -> agrees (wrap_tool_a e rec st ubs t) (wrap_tool e rec' st ubs t).
Proof.
  intros H. unfold wrap_tool_a, wrap_tool. apply agrees_some_then; [apply get_or_create_agrees|]. intros ts i _. apply agrees_some_then; [apply add_binding_agrees|]. intros bs tbl _.
  apply agrees_bind; [apply agrees_lift|]. intros bt _. apply agrees_bind; [apply wrap_loop_agrees; exact H|]. intros [st1 pr] _.
  apply (wrap_end_R (@agrees) (@refines_agrees)).
Qed.
Lemma init_agrees e rec rec' st : agrees_rec rec rec' -> agrees (gotcha_init_a e rec st) (gotcha_init e rec' st).
Proof.
  intros H. unfold gotcha_init_a, gotcha_init. destruct (s_init st); [apply agrees_ret|]. apply agrees_bind.
  - unfold setup_hash_tables_a, setup_hash_tables. apply agrees_create_then. intros lt. apply agrees_create_then. intros ft. apply agrees_create_then. intros nt. apply agrees_ret.
  - intros st1 _. apply agrees_bind; [apply H|]. intros [st2 c] _. apply agrees_ret.
Qed.
Lemma wrap_n_agrees e n : agrees_rec (wrap_n_a e n) (wrap_n e n).
Proof.
  induction n as [|n IH]; intros st ubs t; cbn [wrap_n_a wrap_n]; [apply agrees_lift|]. unfold wrap_body_a, wrap_body. apply agrees_bind; [apply init_agrees; exact IH|]. intros st1 _.
  apply wrap_tool_agrees. exact IH.
Qed.
Lemma set_priority_agrees e st n v : agrees (gotcha_set_priority_a e st n v) (gotcha_set_priority e st n v).
Proof.
  unfold gotcha_set_priority_a, gotcha_set_priority, api_init. apply agrees_bind; [apply init_agrees, wrap_n_agrees|]. intros st1 _. apply agrees_bind; [apply set_priority_int_agrees|]. intros ts _. apply agrees_ret.
Qed.

(** ** dlopen *)
Lemma per_binding_refines e k d st : refines (per_binding_a e k d st) (per_binding e k d st).
Proof.
  unfold per_binding_a, per_binding. destruct k as [k|]; [|apply refines_lift]. destruct d as [b|]; [|apply refines_lift]. apply refines_bind; [apply refines_lift|]. intros b' _.
  apply refines_bind; [apply prepare_symbol_refines|]. intros [st1 f] _. destruct f; [|apply refines_ret]. apply refines_bind; [apply refines_lift|]. intros [t x] _. apply refines_ret.
Qed.
Lemma foreach_loop_refines e : forall fuel i st,
  refines (fun al => do ' ((s, al), r) <- foreach_loop fuel (fun x : state * list bool => b_nf (s_b (fst x)))
              (fun k d x => do ' ((s, r), al) <- per_binding_a e k d (fst x) (snd x); Ok ((s, al), r)) i (st, al); Ok ((s, r), al))
   (foreach_loop fuel (fun s => b_nf (s_b s)) (per_binding e) i st).
Proof.
  induction fuel as [|fuel IH]; intros i st al.
  - right. destruct i as [p|]; cbn [foreach_loop bind]; [reflexivity|]. exists [], al. auto.
  - destruct i as [p|]; cbn [foreach_loop bind]; [|right; exists [], al; auto]. cbn [fst snd].
    destruct (nth_error (ht_table (b_nf (s_b st))) p) as [x|]; cbn [bind]; [|right; reflexivity].
    destruct (per_binding_refines e (he_key x) (he_data x) st al) as [(I & ->)|H]; [left; auto|]. destruct (per_binding e (he_key x) (he_data x) st) as [[st1 r]|f]; cbn [bind].
    2:{ right. rewrite H. reflexivity. }
    destruct H as (u & al' & -> & N & ->). cbn [bind]. destruct (negb (r =? 0)); [right; exists u, al'; auto|]. cbn [fst].
    destruct (nth_error (ht_table (b_nf (s_b st1))) p) as [x'|]; cbn [bind]; [|right; reflexivity].
    destruct (IH (he_next x') st1 al') as [(I & E)|H]; [left; split; [apply in_or_app; auto|exact E]|]. right. destruct (foreach_loop fuel _ _ (he_next x') st1) as [a|f]; [|exact H].
    destruct H as (u' & al'' & -> & N' & E). exists (u ++ u'), al''. split; [apply app_assoc|]. split; [|exact E]. intros I. apply in_app_or in I as [I|I]; auto.
Qed.
Lemma finish_refines e st : refines (dlopen_finish_a e st) (dlopen_finish e st).
Proof.
  unfold dlopen_finish_a, dlopen_finish. apply refines_bind.
  - intros al. unfold foreach_hash_entry_a, foreach_hash_entry. cbn [fst]. apply (foreach_loop_refines e _ _ st al).
  - intros [st1 r] _. apply update_all_refines.
Qed.
