(** What happens when the generation counter wraps around. *)
From Verif Require Import Base ListFacts HashModel HashProofs SpecHash HashTrace ElfModel SpecElf ToolModel CoreModel SpecCore SpecRun SpecSync
  ToolProofs CoreMaps CoreRel CoreLib CoreStep CoreWrap CoreLoop CoreMain CoreEnv CoreSpec CoreFacts CoreHist CoreApi CoreApi2 CoreSync CoreSync2.

Section Around.
Context (e : env) (EO : env_ok e).
Notation ex := (exports e).
Notation rl := relocs.
Notation srel := (srel e ex rl False).

Definition with_gen (l : lstate) (g : Z) : lstate := mkLS (l_table l) (l_heap l) (l_list l) g.

(** gotcha_wrap without bindings: only the generation changes *)
Lemma empty_wrap st a ch tool : srel st a ch [] ->
  exists st', step e st (OWrap [] tool) = Ok (st', RCode GOTCHA_SUCCESS) /\ srel st' (ause a (tool_of tool)) ch [] /\
    s_p st' = s_p st /\ s_l st' = with_gen (s_l st) (u32 (l_gen (s_l st) + 1)).
Proof.
  intros S. cbn [step]. unfold gotcha_wrap. cbn [wrap_n]. unfold wrap_body at 1. unfold gotcha_init. rewrite (sr_init _ _ _ _ _ _ _ _ S). cbn [bind].
  match goal with |- context [wrap_tool e ?rec st [] tool] => destruct (wrap_tool_enter e ex rl EO rec st a ch [] [] tool S) as (st1 & EW & S1 & _ & P1 & L1 & _) end.
  rewrite (EW _ eq_refl). cbn [length wrap_loop bind pr_new pr_not_found]. exists st1. split; [reflexivity|]. split; [exact S1|]. auto.
Qed.

Lemma u32_mod g k : u32 (u32 g + k) = u32 (g + k).
Proof. unfold u32. apply Z.add_mod_idemp_l. discriminate. Qed.

(** many of them: the generation advances modulo 2^32 *)
Lemma empty_wraps tool k : forall st a ch, srel st a ch [] -> a_tools (ause a (tool_of tool)) = a_tools a -> l_gen (s_l st) = u32 (l_gen (s_l st)) ->
  exists st' rs a', run e st (repeat (OWrap [] tool) k) = Ok (st', rs) /\ srel st' a' ch [] /\
    a_main a' = a_main a /\ a_tools a' = a_tools a /\ a_stack a' = a_stack a /\ a_orig a' = a_orig a /\ a_maps a' = a_maps a /\
    s_p st' = s_p st /\ s_l st' = with_gen (s_l st) (u32 (l_gen (s_l st) + Z.of_nat k)).
Proof.
  induction k as [|k IH]; intros st a ch S Ht Hg.
  - cbn [repeat run]. exists st, [], a. split; [reflexivity|]. spl; auto. rewrite Z.add_0_r, <- Hg. destruct (s_l st). reflexivity.
  - cbn [repeat run]. destruct (empty_wrap st a ch tool S) as (st1 & E1 & S1 & P1 & L1). rewrite E1. cbn [bind].
    destruct (IH st1 (ause a (tool_of tool)) ch S1) as (st2 & rs & a2 & E2 & S2 & A1 & A2 & A3 & A4 & A5 & P2 & L2).
    + unfold ause in *. cbn [a_tools] in *. rewrite Ht. exact Ht.
    + rewrite L1. cbn [l_gen with_gen]. rewrite <- (Z.add_0_r (u32 (l_gen (s_l st) + 1))) at 2. rewrite u32_mod, Z.add_0_r. reflexivity.
    + rewrite E2. cbn [bind]. exists st2. eexists. exists a2. split; [reflexivity|]. cbn [ause a_main a_tools a_stack a_orig a_maps] in *. spl; auto.
      * rewrite A2. exact Ht.
      * congruence.
      * rewrite L2, L1. cbn [l_gen with_gen l_table l_heap l_list]. unfold with_gen. cbn [l_table l_heap l_list]. rewrite u32_mod. f_equal. f_equal. lia.
Qed.

(** a library whose generation the counter has just come back to is skipped *)
Lemma tracks_known m i l l' : tracks [m] l l' -> get_library l m = Ok (Some i) -> l' = l.
Proof.
  induction 1 as [l|l m' l1 j l' Hin E T IH]; intros H; [reflexivity|]. destruct Hin as [<-|[]]. unfold track_library in E. rewrite H in E. cbn [bind] in E.
  injection E as -> ->. auto.
Qed.

Lemma skipped st a ch tool ubs m i lb : srel st a ch [] -> plain a ubs -> ubs <> [] -> p_maps (s_p st) = [m] -> get_library (s_l st) m = Ok (Some i) ->
  nth_error (l_heap (s_l st)) i = Some lb -> lb_gen lb = u32 (l_gen (s_l st) + 1) ->
  exists st' r ch', step e st (OWrap ubs tool) = Ok (st', r) /\ srel st' (fst (abinds ins_c ex (ause a (tool_of tool)) (tool_of tool) ubs)) ch' [] /\
    s_p st' = s_p st /\ s_l st' = with_gen (s_l st) (lb_gen lb).
Proof.
  intros S Hpl Hne Hm Hget Hlb Hgen. cbn [step]. unfold gotcha_wrap. cbn [wrap_n]. unfold wrap_body at 1. unfold gotcha_init. rewrite (sr_init _ _ _ _ _ _ _ _ S). cbn [bind].
  match goal with |- context [wrap_tool e ?rec st ubs tool] => set (R := rec) end.
  destruct (wrap_tool_enter e ex rl EO R st a ch [] ubs tool S) as (st1 & EW & S1 & _ & P1 & L1 & Hent). rewrite (EW _ eq_refl). clear EW.
  destruct (wrap_loop_sync e ex rl EO R (tool_of tool) (map ub_name ubs) (Z.of_nat (length ubs)) ch ltac:(destruct ubs; [congruence|cbn; lia]) ubs st1 _ ch [] _ (mkPr 0 None) S1 Hent)
    as (st2 & ch2 & pr2 & EL & S2 & P2 & T2 & _).
  { destruct Hpl as [H|H]; [left; auto|right; auto]. }
  { intros u Hu. apply in_map. exact Hu. }
  { exists (fun _ => None). cbn. split; [auto|]. split; [congruence|auto]. }
  rewrite EL. cbn [bind]. rewrite P1, Hm in T2. rewrite <- Hgen in L1.
  assert (Hget1 : get_library (s_l st1) m = Ok (Some i)) by (rewrite L1; exact Hget).
  apply (tracks_known m i) in T2; [|exact Hget1].
  assert (EU : forall t, update_all_library_gots e t st2 = Ok st2).
  { intros t. unfold update_all_library_gots. rewrite P2, P1, Hm. cbn [update_gots]. unfold update_library_got, track_library. rewrite T2, Hget1. cbn [bind].
    assert (HLm : lib_ok e ex rl m).
    { apply (sr_lib _ _ _ _ _ _ _ _ S). rewrite <- (sr_maps _ _ _ _ _ _ _ _ S), Hm. left. auto. }
    destruct (filter_ok e ex rl m (p_filter (s_p st)) [] HLm) as [acc ->]. cbn [bind].
    assert (HD : set_p (s_p st) (set_l (s_l st1) st2) = st2).
    { rewrite <- P1, <- P2, <- T2. destruct st2; reflexivity. }
    destruct acc; cbn [negb bind]; [|rewrite HD; reflexivity].
    rewrite L1 at 1. cbn [l_heap]. rewrite (deref_Ok _ _ _ Hlb). cbn [bind]. rewrite L1 at 1. cbn [l_gen]. rewrite Z.eqb_refl. cbn [bind]. rewrite HD. reflexivity. }
  assert (EF : (do st0 <- match pr_new pr2 with Some t => update_all_library_gots e t st2 | None => Ok st2 end;
      Ok (st0, if negb (pr_not_found pr2 =? 0) then GOTCHA_FUNCTION_NOT_FOUND else GOTCHA_SUCCESS)) = Ok (st2, if negb (pr_not_found pr2 =? 0) then GOTCHA_FUNCTION_NOT_FOUND else GOTCHA_SUCCESS)).
  { destruct (pr_new pr2); [rewrite EU|]; reflexivity. }
  rewrite EF. cbn [bind]. eexists st2, _, ch2. split; [reflexivity|]. split; [exact S2|]. split; [congruence|]. rewrite T2, L1. reflexivity.
Qed.
End Around.
