(** dlsym_wrapper on reachable states. *)
From Verif Require Import Base ListFacts SpecHash HashTrace HashModel HashProofs ElfModel SpecElf ElfProofs ToolModel CoreModel SpecCore SpecRun
  ToolProofs CoreMaps CoreRel CoreLib CoreStep CoreWrap CoreLoop CoreMain CoreEnv CoreSpec CoreFacts CoreHist CoreApi CoreApi2.
From Coq Require Import Permutation Sorted.

(** dlsym_wrapper can run: GOTCHA is initialised *)
Lemma api_installs e ops : existsb is_api ops = true -> forall u, In u (dl_binds e) -> exists x, In x (installed e ops (ub_name u)) /\ en_handle x = ub_handle u.
Proof.
  intros H u Hu. assert (Hin : In u (map trip (installs e false false ops))).
  { eapply Permutation_in; [apply Permutation_sym, installs_perm|]. apply in_or_app. left. unfold own. rewrite H. apply in_or_app. left. exact Hu. }
  apply in_map_iff in Hin. destruct Hin as ([n x] & E & Hin). subst u. exists x. cbn. split; [|auto]. unfold installed. apply in_sel. auto.
Qed.

Lemma dl_handles e maps mem ops st rs : process_ok e maps ops -> fresh e ops -> existsb is_api ops = true -> run e (init_state maps mem) ops = Ok (st, rs) ->
  rel1 e True st (history e maps ops) /\ s_init st = true /\
  (exists w, gotcha_get_wrappee st (e_h_dlopen e) = Ok w) /\ (exists w, gotcha_get_wrappee st (e_h_dlsym e) = Ok w).
Proof.
  intros P F A E. destruct (run_hist e maps mem ops P F) as (st0 & E0 & R). rewrite E in E0. injection E0 as <- _. split; [exact R|].
  assert (H : forall u, In u (dl_binds e) -> exists i ib, b_handles (s_b st) (ub_handle u) = Some i /\ nth_error (b_ib (s_b st)) i = Some ib).
  { intros u Hu. destruct (api_installs e ops A u Hu) as (x & Hx & Eh). apply (Permutation_in _ (Permutation_sym (stacks_installed e (exports e) maps ops (ub_name u)))) in Hx.
    destruct (rel_denotes e st _ _ _ R Hx) as (i & B1 & B2 & B3). destruct (entry_ib _ _ _ B1) as (ib & B4 & _). exists i, ib. rewrite <- Eh. auto. }
  assert (HW : forall u, In u (dl_binds e) -> exists w, gotcha_get_wrappee st (ub_handle u) = Ok w).
  { intros u Hu. destruct (H u Hu) as (i & ib & B1 & B2). unfold gotcha_get_wrappee. rewrite B1, (deref_Ok _ _ _ B2). cbn [bind]. eauto. }
  split; [|split].
  - destruct R as [R|[ch S]]; [|apply S]. destruct (H (mkUB n_dlopen (e_w_dlopen e) (e_h_dlopen e))) as (i & ib & B1 & B2); [left; auto|].
    rewrite (pr_b _ _ _ _ _ R) in B1. discriminate.
  - apply (HW (mkUB n_dlopen (e_w_dlopen e) (e_h_dlopen e))). left; auto.
  - apply (HW (mkUB n_dlsym (e_w_dlsym e) (e_h_dlsym e))). right; left; auto.
Qed.

Lemma fn_lookup e F st a n : rel1 e F st a -> s_init st = true ->
  match a_stack a n with
  | [] => lookup_hashtable (b_fn (s_b st)) n = Ok None
  | x :: _ => exists i ib, lookup_hashtable (b_fn (s_b st)) n = Ok (Some i) /\ nth_error (b_ib (s_b st)) i = Some ib /\
                ub_wrapper (ib_user ib) = en_wrapper x /\ ub_handle (ib_user ib) = en_handle x
  end.
Proof.
  intros [R|[ch S]] Hi; [rewrite (pr_i _ _ _ _ _ R) in Hi; discriminate|]. pose proof (sr_b _ _ _ _ _ _ _ _ S) as B. rewrite (smap_lookup _ _ n (br_fn _ _ _ _ _ B)).
  pose proof (br_stack _ _ _ _ _ B n) as FS. destruct FS as [|i x l s Hx FS]; [reflexivity|]. destruct (entry_ib _ _ _ Hx) as (ib & A1 & A2 & A3). exists i, ib. auto.
Qed.

(** what dlsym_wrapper does if it does not return a wrapper *)
Definition plain_dlsym (e : env) (w : dlworld) (st : state) (handle : Z) (name : cstr) : outcome dlres :=
  if handle =? RTLD_NEXT then
    do c <- find_caller (e_phdrs e (p_maps (s_p st))) (p_maps (s_p st)) (dw_caller w);
    match c with
    | None => Ok DExit
    | Some [] => Fault NullDeref
    | Some (_ :: after) =>
      do lib <- next_export e after name;
      match lib with
      | Some lib => Ok (DReturn (dw_dlsym w (dw_dlopen w (lm_name lib)) name))
      | None => Ok (DReturn 0)
      end
    end
  else Ok (DReturn (dw_dlsym w handle name)).

Lemma dlsym_eq e maps mem ops st rs w h n : process_ok e maps ops -> fresh e ops -> existsb is_api ops = true -> run e (init_state maps mem) ops = Ok (st, rs) ->
  exists i, dlsym_wrapper e w st h n =
   match stack e maps ops n with
   | [] => plain_dlsym e w st h n
   | x :: r => let v := match r with y :: _ => en_wrapper y | [] => match original e maps ops n with Some a => a | None => e_junk e i end end in
               if (dw_dlsym w h n =? 0) || (v =? dw_dlsym w h n) then Ok (DReturn (en_wrapper x)) else plain_dlsym e w st h n
   end.
Proof.
  intros P F A E. destruct (dl_handles e maps mem ops st rs P F A E) as (R & Hi & [w1 H1] & [w2 H2]).
  unfold dlsym_wrapper. rewrite H1, H2. cbn [bind]. pose proof (fn_lookup e True st _ n R Hi) as L. fold (stack e maps ops n) in L.
  pose proof (rel_wired e st _ n R) as W. fold (stack e maps ops n) (original e maps ops n) in W. fold (plain_dlsym e w st h n).
  destruct (stack e maps ops n) as [|x r] eqn:Es.
  - rewrite L. cbn [bind]. exists 0%nat. reflexivity.
  - destruct L as (i & ib & L1 & L2 & L3 & L4). rewrite L1. cbn [bind]. rewrite (deref_Ok _ _ _ L2). cbn [bind]. rewrite L3, L4.
    assert (Hx : In x (a_stack (history e maps ops) n)) by (fold (stack e maps ops n); rewrite Es; left; auto).
    destruct (rel_denotes e st _ n x R Hx) as (j & B1 & B2 & B3). rewrite B3.
    destruct W as [W _]. unfold gotcha_get_wrappee in W. rewrite B3 in W. destruct (deref (b_ib (s_b st)) j) as [hb|]; [|discriminate]. cbn [bind] in *. injection W as W. rewrite W.
    exists j. destruct r as [|y r]; [destruct (original e maps ops n)|]; reflexivity.
Qed.

Lemma next_export_spec e after n : (forall m, In m after -> lib_ok e (exports e) relocs m) ->
  next_export e after n = Ok (find (fun m => match exports e m n with Some _ => true | None => false end) after).
Proof.
  induction after as [|m r IH]; intros H; cbn [next_export find]; [reflexivity|].
  rewrite (lo_export _ _ _ _ (H m (or_introl eq_refl)) n). cbn [bind]. destruct (exports e m n); [reflexivity|]. apply IH. intros; apply H; right; auto.
Qed.

Lemma find_lmap_spec pre m after nm ad : (forall x, In x (pre ++ m :: after) -> lm_name x <> None) -> lm_name m = Some nm -> lm_addr m = ad ->
  (forall m', In m' pre -> lm_name m' <> Some nm \/ lm_addr m' <> ad) -> find_lmap (pre ++ m :: after) nm ad = Ok (Some (m :: after)).
Proof.
  intros HN Hm Ha. induction pre as [|p r IH]; intros H; cbn [app find_lmap].
  - rewrite Hm. assert (E : libc_strcmp nm nm =? 0 = true) by (apply Z.eqb_eq; apply libc_strcmp_eq0; auto). rewrite E, Ha, Z.eqb_refl. reflexivity.
  - destruct (lm_name p) as [q|] eqn:Ep; [|destruct (HN p); [left; auto|auto]].
    destruct (Z.eqb_spec (libc_strcmp q nm) 0) as [E|E]; cbn [andb].
    + apply libc_strcmp_eq0 in E. subst q. destruct (H p) as [H1|H1]; [left; auto|congruence|]. destruct (Z.eqb_spec ad (lm_addr p)); [congruence|]. apply IH; [intros; apply HN; right; auto|intros; apply H; right; auto].
    + apply IH; [intros; apply HN; right; auto|intros; apply H; right; auto].
Qed.

Lemma in_object_segment a i : segments_fit i -> in_object a i = true <-> in_segment a i.
Proof.
  intros F. unfold in_object. rewrite existsb_exists. split.
  - intros (ph & I & H). apply andb_true_iff in H. destruct H as [T H]. apply Z.eqb_eq in T. destruct (F ph I T) as [F1 F2]. exists ph. split; [exact I|]. split; [exact T|].
    apply andb_true_iff in H. destruct H as [H1 H2]. apply Z.leb_le in H1. apply Z.ltb_lt in H2. fold (segment_start i ph) in *. unfold segment_start in *. unfold u64, two64 in *.
    rewrite (Z.mod_small (_ mod _ + _)) in H2 by (pose proof (Z.mod_pos_bound (dlpi_addr i + p_vaddr ph) 18446744073709551616); lia). lia.
  - intros (ph & I & T & H). destruct (F ph I T) as [F1 F2]. exists ph. split; [exact I|]. rewrite T. cbn [Z.eqb PT_LOAD Pos.eqb andb]. unfold segment_start in *. unfold u64, two64 in *.
    rewrite (Z.mod_small (_ mod _ + _)) by (pose proof (Z.mod_pos_bound (dlpi_addr i + p_vaddr ph) 18446744073709551616); lia).
    apply andb_true_iff. split; [apply Z.leb_le|apply Z.ltb_lt]; lia.
Qed.

Lemma find_caller_spec e st w m after : (forall x, In x (p_maps (s_p st)) -> lm_name x <> None) -> caller_in e st w m after ->
  find_caller (e_phdrs e (p_maps (s_p st))) (p_maps (s_p st)) (dw_caller w) = Ok (Some (m :: after)).
Proof.
  intros HN (i1 & i & i2 & pre & E & N & Hi & F & EM & En & Ea & Hp). rewrite E. clear E. induction i1 as [|j r IH]; cbn [app find_caller].
  - apply in_object_segment in Hi; [|apply F; left; auto]. rewrite Hi, EM. rewrite (find_lmap_spec pre m after); auto. rewrite <- EM. auto.
  - destruct (in_object (dw_caller w) j) eqn:Ej; [apply in_object_segment in Ej; [|apply F; left; auto]; destruct (N j); [left; auto|exact Ej]|].
    apply IH; [intros; apply N; right; auto|intros; apply F; right; auto].
Qed.

Lemma dlsym_next e maps mem ops st rs w n m after : process_ok e maps ops -> fresh e ops -> existsb is_api ops = true -> run e (init_state maps mem) ops = Ok (st, rs) ->
  ~ wrapped e ops n -> caller_in e st w m after ->
  dlsym_wrapper e w st RTLD_NEXT n = Ok (DReturn (match find (fun l => match exports e l n with Some _ => true | None => false end) after with
                                                   | Some lib => dw_dlsym w (dw_dlopen w (lm_name lib)) n | None => 0 end)).
Proof.
  intros P F A E NW C. destruct (dlsym_eq e maps mem ops st rs w RTLD_NEXT n P F A E) as [i Ed]. rewrite Ed.
  assert (Es : stack e maps ops n = []) by (apply (stack_empty e (exports e) place place_ne maps ops n); auto). rewrite Es. unfold plain_dlsym. rewrite Z.eqb_refl.
  destruct (dl_handles e maps mem ops st rs P F A E) as (R & _). destruct (rel_lib _ _ _ _ _ _ R) as [RL RM]. rewrite <- RM in RL.
  rewrite (find_caller_spec e st w m after); [|intros x Hx; apply (lo_name _ _ _ _ (RL x Hx))|auto]. cbn [bind].
  rewrite next_export_spec.
  - cbn [bind]. destruct (find _ after); reflexivity.
  - intros x Hx. apply RL. destruct C as (i1 & j & i2 & pre & _ & _ & _ & _ & EM & _). rewrite EM. apply in_or_app. right. right. auto.
Qed.

Lemma dlsym_total e maps mem ops st rs w h n : process_ok e maps ops -> fresh e ops -> existsb is_api ops = true -> run e (init_state maps mem) ops = Ok (st, rs) ->
  exists r, dlsym_wrapper e w st h n = Ok r.
Proof.
  intros P F A E. destruct (dlsym_eq e maps mem ops st rs w h n P F A E) as [i Ed]. rewrite Ed.
  destruct (dl_handles e maps mem ops st rs P F A E) as (R & _). destruct (rel_lib _ _ _ _ _ _ R) as [RL RM]. rewrite <- RM in RL.
  assert (HP : exists r, plain_dlsym e w st h n = Ok r).
  { unfold plain_dlsym. destruct (h =? RTLD_NEXT); [|eauto].
    assert (HL : forall nm ad maps', (forall m, In m maps' -> lib_ok e (exports e) relocs m) -> find_lmap maps' nm ad = Ok None \/ exists pre m after, maps' = pre ++ m :: after /\ find_lmap maps' nm ad = Ok (Some (m :: after))).
    { intros nm ad. induction maps' as [|m r IH]; intros H; cbn [find_lmap]; [auto|]. destruct (lm_name m) as [q|] eqn:Eq; [|destruct (lo_name _ _ _ _ (H m (or_introl eq_refl))); auto].
      destruct ((libc_strcmp q nm =? 0) && (ad =? lm_addr m)); [right; exists [], m, r; auto|]. destruct IH as [IH|(pre & x & after & -> & IH)]; [intros; apply H; right; auto|auto|]. right. exists (m :: pre), x, after. auto. }
    assert (HC : forall infos, find_caller infos (p_maps (s_p st)) (dw_caller w) = Ok None \/ exists pre m after, p_maps (s_p st) = pre ++ m :: after /\ find_caller infos (p_maps (s_p st)) (dw_caller w) = Ok (Some (m :: after))).
    { induction infos as [|j r IH]; cbn [find_caller]; [auto|]. destruct (in_object (dw_caller w) j); [|auto].
      destruct (HL (dlpi_name j) (dlpi_addr j) _ RL) as [H|(pre & m & after & H1 & H2)]; [rewrite H; cbn [bind]; auto|]. rewrite H2. cbn [bind]. right. eauto. }
    destruct (HC (e_phdrs e (p_maps (s_p st)))) as [H|(pre & m & after & H1 & H2)]; [rewrite H; cbn [bind]; eauto|]. rewrite H2. cbn [bind].
    rewrite next_export_spec; [cbn [bind]; destruct (find _ after); eauto|]. intros x Hx. apply RL. rewrite H1. apply in_or_app. right. right. auto. }
  destruct (stack e maps ops n) as [|x r]; [auto|]. cbn. match goal with |- context [if ?b then _ else _] => destruct b end; eauto.
Qed.
