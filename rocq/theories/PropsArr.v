(** C74: the array of bindings given to gotcha_wrap. *)
From Verif Require Import Base ListFacts HashModel HashProofs HashTrace SpecHash ElfModel SpecElf ToolModel ToolProofs CoreMaps CoreModel SpecCore SpecRun SpecSync CoreRel CoreLib CoreStep CoreWrap CoreLoop CoreMain CoreEnv CoreSpec CoreFacts CoreHist CoreApi CoreApi2 CoreSync CoreSync2 CoreSync3 CoreWrapAround
  ArrModel SpecArr ArrProofs ArrProofs2 PropsElf Demo PropsCoreEx PropsSyncEx.
From Coq Require String.
Import String.StringSyntax.
Open Scope string_scope.
Open Scope list_scope.
Open Scope Z_scope.

(** A process that never writes to an element again once it has been given to gotcha_wrap cannot tell that GOTCHA keeps pointers:
    every call returns what it would return if gotcha_wrap copied the array, GOTCHA's tables and the memory of the process are the
    same, and so are the faults. *)
Theorem C74_kept e maps mem arr ops : arrays_kept ops ->
  match run e (init_state maps mem) (copied arr ops) with
  | Ok (st, rs) => exists v, vrun e (vinit maps mem arr) ops = Ok (v, rs) /\ v_st v = st
  | Fault f => vrun e (vinit maps mem arr) ops = Fault f
  end.
Proof. intros K. apply (vrun_copied e ops [] (vinit maps mem arr) K). intros ? ? []. Qed.
Print Assumptions C74_kept.

(** What reusing an element does.  Writing a binding [u] over the element that the outermost wrapper of [n] was given in changes
    nothing at first; but the next library loaded with dlopen gets the wrapper of [u] in its slots for [n], whatever name [u] has. *)
Theorem C74_stored_law e maps mem arr ops v rs a i u libs mem' n m x :
  arrays_kept ops -> let hist := copied arr ops in process_ok e maps (hist ++ [OLoad libs mem']) -> calm maps (hist ++ [OLoad libs mem']) ->
  existsb is_api hist = true -> vrun e (vinit maps mem arr) ops = Ok (v, rs) -> all_found e maps hist -> given_in v n a i ->
  ~ current (v_st v) m -> accepted (p_filter (s_p (v_st v))) (maps_after maps (hist ++ [OLoad libs mem'])) m -> slot relocs m n x ->
  exists v', vrun e v [BStore a i u; BOther (OLoad libs mem'); BOther OFinish] = Ok (v', [RNone; RNone]) /\ p_mem (s_p (v_st v')) x = ub_wrapper u.
Proof. exact (stored_law e maps mem arr ops v rs a i u libs mem' n m x). Qed.
Print Assumptions C74_stored_law.

Theorem C74_not_at_once e v a i u : exists v', vstep e v (BStore a i u) = Ok (v', []) /\ p_mem (s_p (v_st v')) = p_mem (s_p (v_st v)) /\
  forall h, gotcha_get_wrappee (v_st v') h = gotcha_get_wrappee (v_st v) h.
Proof.
  eexists. split; [reflexivity|]. split; [reflexivity|]. intros h. unfold gotcha_get_wrappee. cbn [v_st s_b set_b b_handles b_ib set_ib]. destruct (b_handles (s_b (v_st v)) h) as [k|]; [|reflexivity].
  unfold deref. rewrite repoint_nth. destruct (nth_error (b_ib (s_b (v_st v))) k) as [ib|]; [|reflexivity]. cbn [option_map bind].
  destruct (nth_error (v_of v) k) as [o|]; [|reflexivity]. destruct (points a i o); reflexivity.
Qed.
Print Assumptions C74_not_at_once.

(** Whatever the process stores, GOTCHA always sees each binding as its element is now, and a stored element can be put back: GOTCHA's
    whole state is then what it was before the store. *)
Theorem C74_by_reference e maps mem arr ops v rs : vrun e (vinit maps mem arr) ops = Ok (v, rs) ->
  forall k a i, nth_error (v_of v) k = Some (Some (a, i)) -> exists ib, nth_error (b_ib (s_b (v_st v))) k = Some ib /\ ib_user ib = v_arr v a i.
Proof.
  intros E k a i H. destruct (vrun_ok e ops _ _ _ (vinit_ok maps mem arr) E) as [_ K]. specialize (K k a i H). unfold users in K. rewrite nth_error_map in K.
  destruct (nth_error (b_ib (s_b (v_st v))) k) as [ib|]; [|discriminate K]. exists ib. split; [reflexivity|]. injection K as K. exact K.
Qed.
Print Assumptions C74_by_reference.
Theorem C74_put_back e maps mem arr ops v rs a i u : vrun e (vinit maps mem arr) ops = Ok (v, rs) ->
  exists v', vrun e v [BStore a i u; BStore a i (v_arr v a i)] = Ok (v', []) /\ v_st v' = v_st v /\ v_of v' = v_of v /\ forall a' i', v_arr v' a' i' = v_arr v a' i'.
Proof.
  intros E. destruct (vrun_ok e ops _ _ _ (vinit_ok maps mem arr) E) as [_ K]. eexists. split; [reflexivity|]. cbn [v_st v_of v_arr]. split; [|split; [reflexivity|]].
  - cbn [s_b set_b b_ib set_ib]. rewrite repoint_back.
    + destruct (v_st v) as [? ? [] ? ?]. reflexivity.
    + intros k b H Hb. specialize (K k a i H). unfold users in K. rewrite nth_error_map, Hb in K. injection K as K. exact K.
  - intros a' i'. destruct (Nat.eqb_spec a' a) as [->|]; [|reflexivity]. destruct (Nat.eqb_spec i' i) as [->|]; reflexivity.
Qed.
Print Assumptions C74_put_back.

(** *** a process that uses one element for two calls *)
Definition arr0 : nat -> nat -> ubind := fun _ _ => mkUB [] 0 0.
Definition reuse : list bop := [BStore 0 0 (mkUB f_name 11 1); BWrap 0 0 1 (Some n_a); BStore 0 0 (mkUB g_name 12 2); BWrap 0 0 1 (Some n_a)].
Definition two : list bop := [BStore 0 0 (mkUB f_name 11 1); BStore 0 1 (mkUB g_name 12 2); BWrap 0 0 2 (Some n_a)].
Definition mem_2 : Z -> Z := fun x => if x =? 131112 then 66048 else if x =? 131120 then 66048 else if x =? 131128 then 7 else p_mem (s_p (st_of (demo_run (copied arr0 reuse)))) x.
Notation demo_vrun ops := (vrun demo_env (vinit demo_libs demo_mem arr0) ops).
Definition v_of_run (r : outcome (vstate * list res)) : vstate := match r with Ok (v, _) => v | Fault _ => vinit [] (fun _ => 0) arr0 end.
Definition vrs_of (r : outcome (vstate * list res)) : list res := match r with Ok (_, x) => x | Fault _ => [] end.
Lemma vrun_of r : is_ok r = true -> r = Ok (v_of_run r, vrs_of r).
Proof. destruct r as [[v x]|]; [reflexivity|discriminate]. Qed.

(** The condition is needed (docs/api.rst:82-83): the process stores f's binding, wraps, stores g's binding into the same element, and wraps; both calls succeed.
    A library loaded afterwards gets g's wrapper 12 in its slot for f, where a copied array would have given it f's wrapper 11. *)
Theorem C74_reuse_shows : exists e maps mem arr ops v rs st rs' n x,
  process_ok e maps (copied arr ops) /\ fresh e (copied arr ops) /\ tidy maps (copied arr ops) /\
  vrun e (vinit maps mem arr) ops = Ok (v, rs) /\ run e (init_state maps mem) (copied arr ops) = Ok (st, rs') /\ rs = rs' /\
  slot relocs lib_e n x /\ outermost st n = Ok (Some 11) /\ p_mem (s_p st) x = 11 /\ p_mem (s_p (v_st v)) x = 12.
Proof.
  set (ops := reuse ++ [BOther (OLoad [lib_e] mem_2); BOther OFinish]).
  exists demo_env, demo_libs, demo_mem, arr0, ops, (v_of_run (demo_vrun ops)), (vrs_of (demo_vrun ops)), (st_of (demo_run (copied arr0 ops))), (rs_of (demo_run (copied arr0 ops))), f_name, 131112.
  split; [process|]. split; [apply freshb_ok; vm_compute; reflexivity|]. split; [apply tidyb_ok; vm_compute; reflexivity|].
  split; [apply vrun_of; vm_compute; reflexivity|]. split; [apply run_of; vm_compute; reflexivity|]. split; [vm_compute; reflexivity|].
  split; [is_slot 40|]. split; [vm_compute; reflexivity|]. split; vm_compute; reflexivity.
Qed.
Print Assumptions C74_reuse_shows.

(** the hypotheses: one array of two elements, wrapped once; then f's element is overwritten and libe.so loaded *)
Example C74_ex_kept : arrays_kept two /\ copied arr0 two = [OWrap [mkUB f_name 11 1; mkUB g_name 12 2] (Some n_a)].
Proof.
  split; [|reflexivity]. intros l1 a i u l2 E off n tool H. unfold two in E. prefixes l1 E; try injection E as <- <- <- <-; cbn in H; intuition discriminate.
Qed.
(** libdl.so, which exports dlopen and dlsym *)
Definition dl_image : image := mkImage [(DT_GNU_HASH, 4096); (DT_SYMTAB, 6000); (DT_STRTAB, 7000); (DT_NULL, 0)]
     (fun _ => []) (fun _ => []) (fun _ => [mkSym 0 0 0 0 0; mkSym 1 256 8 2 9; mkSym 8 512 8 2 9]) (fun a => if a =? 7001 then n_dlopen else if a =? 7008 then n_dlsym else [])
     (fun _ => []) (fun _ => [1; 1; 0; 0; 1; 4177789446; 256754863]).
Definition dl_lib : lmap := mkLmap 5 (Some (of_string "libdl.so")) 2097152 4 dl_image.
Lemma dl_lib_wf : lib_wf dl_lib.
Proof.
  split; [discriminate|]. exists (removelast (im_dyn dl_image)). split.
  - constructor.
    + constructor; [discriminate|reflexivity| |split; reflexivity].
      intros tag Hin. cbn in Hin. destruct Hin as [<-|[<-|[<-|[<-|[<-|[]]]]]]; (split; [vm_compute; discriminate|reflexivity]).
    + exact I.
    + intros _. exists 1, 1, [1], [4177789446; 256754863].
      assert (HC : gnu_chain [4177789446; 256754863] 1 1 [1; 2]) by (eapply gc_more; [lia|reflexivity|reflexivity|]; eapply gc_last; [lia|reflexivity|reflexivity]).
      constructor.
      * exists 0, 0, []. split; [reflexivity|split; [reflexivity|lia]].
      * split; [lia|reflexivity].
      * split; [lia|reflexivity].
      * reflexivity.
      * intros b s Hb. destruct b as [|[|]]; try discriminate. injection Hb as <-. right. eauto.
      * intros i n Hi Hn. assert (i = 1 \/ i = 2) as [-> | ->] by (cbn in Hi; lia); vm_compute in Hn; injection Hn as <-;
          (split; [eexists; split; reflexivity|]); exists 1, [1; 2]; (split; [reflexivity|split; [exact HC|cbn; auto]]).
    + intros H. exfalso. apply H. reflexivity.
  - split; [vm_compute; discriminate|]. split; [intros H; exfalso; apply H; reflexivity|]. intros r [].
Qed.
Definition libs_2 : list lmap := [demo_lib; g_lib; dl_lib].
Notation vrun_2 := (vrun demo_env (vinit libs_2 demo_mem arr0) two).
Example C74_ex_stored : let v := v_of_run vrun_2 in let hist := copied arr0 two in
  process_ok demo_env libs_2 (hist ++ [OLoad [lib_e] mem_2]) /\ calm libs_2 (hist ++ [OLoad [lib_e] mem_2]) /\ existsb is_api hist = true /\
  vrun_2 = Ok (v, vrs_of vrun_2) /\ all_found demo_env libs_2 hist /\ given_in v f_name 0 0 /\ ~ current (v_st v) lib_e /\
  accepted (p_filter (s_p (v_st v))) (maps_after libs_2 (hist ++ [OLoad [lib_e] mem_2])) lib_e /\ slot relocs lib_e f_name 131112.
Proof.
  cbv zeta. split. { constructor; [exact env_wf|intros m [<-|[<-|[<-|[]]]]; [exact demo_wf|exact g_lib_wf|exact dl_lib_wf]|]. intros o m [<-|[<-|[]]] Hm; [destruct Hm|]. destruct Hm as [<-|[]]. apply demo_lib_wf. }
  split; [apply tidy_calm, tidyb_ok; vm_compute; reflexivity|]. split; [reflexivity|]. split; [apply vrun_of; vm_compute; reflexivity|].
  split. { intros n W. destruct (original demo_env libs_2 (copied arr0 two) n) as [x|] eqn:Eo; [exists x; apply original_found; exact Eo|exfalso].
    assert (I : In n (map fst (installs demo_env false false (copied arr0 two)))).
    { unfold wrapped, installed, sel in W. destruct (filter _ _) as [|p l] eqn:F; [exfalso; apply W; reflexivity|].
      assert (H : In p (p :: l)) by (left; reflexivity). rewrite <- F in H. apply filter_In in H. destruct H as [H1 H2]. apply cstr_eqb_ok in H2. subst n. apply in_map. exact H1. }
    vm_compute in I. repeat (destruct I as [<-|I]; [vm_compute in Eo; discriminate|]). destruct I. }
  split. { eexists. split; vm_compute; reflexivity. }
  split. { intros (i & lb & H & _). vm_compute in H. discriminate. }
  split; [apply accepted_always; vm_compute; auto|]. is_slot 40.
Qed.
