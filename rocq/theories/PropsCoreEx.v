(** Examples meeting the hypotheses of the theorems of PropsCore, and counterexamples: C03, C09, C11-C13, C15. *)
From Verif Require Import Base ListFacts SpecHash HashTrace HashModel HashProofs ElfModel SpecElf ElfProofs ToolModel CoreModel SpecCore SpecRun PropsElf Demo.
From Coq Require Import Permutation Sorted.
From Coq Require String.
Import String.StringSyntax.
Open Scope string_scope.
Open Scope list_scope.
Open Scope Z_scope.

Definition n_a : cstr := of_string "a".
Definition n_b : cstr := of_string "b".
(** initial memory: the slots of demo_lib are bound to its own f and to a stub *)
Definition demo_mem : Z -> Z := fun x => if x =? 65576 then 66048 else if x =? 65584 then 66048 else 7.
Notation demo_run ops := (run demo_env (init_state demo_libs demo_mem) ops).

Ltac process := constructor;
  [exact env_wf
  |intros m Hm; cbn in Hm; repeat (destruct Hm as [<-|Hm]; [exact demo_wf|]); destruct Hm
  |intros o m Ho Hm; cbn in Ho; repeat (destruct Ho as [<-|Ho]; [cbn in Hm; try destruct Hm as [<-|Hm]; try contradiction; try exact g_lib_wf; try apply demo_lib_wf|]); try destruct Ho].

(** tool "a" wraps f and g (g is missing), tool "b" gets priority 5 and wraps f, then libg.so is loaded *)
Definition hist1 : list op :=
  [OWrap [mkUB f_name 11 1; mkUB g_name 12 2] (Some n_a); OSetPriority n_b 5; OWrap [mkUB f_name 21 3] (Some n_b)].
(** memory with the slots as hist1 left them *)
Definition mem1 : Z -> Z := fun x => if x =? 65576 then 21 else if x =? 65584 then 21 else if x =? 65592 then 12 else 7.
Definition hist2 : list op := hist1 ++ [OLoad [g_lib] mem1; OFinish].

Example hist1_ok : process_ok demo_env demo_libs hist1 /\ fresh demo_env hist1 /\ priorities_first hist1 /\ existsb is_api hist1 = true.
Proof.
  split; [process|]. split; [apply freshb_ok; vm_compute; reflexivity|]. split; [|reflexivity].
  intros l1 t v l2 E. destruct l1 as [|o1 [|o2 l1]].
  - discriminate.
  - injection E as <- <- <- _. split; [discriminate|]. intros ubs tool [H|[]] _. injection H as <- <-. discriminate.
  - injection E as _ _ E. destruct l1 as [|o3 [|]]; discriminate.
Qed.
Example hist2_ok : process_ok demo_env demo_libs hist2 /\ fresh demo_env hist2.
Proof. split; [process|apply freshb_ok; vm_compute; reflexivity]. Qed.

(** observed: return codes, the outermost wrappers, the wrappees, the slots *)
Definition obs1 (st : state) := (outermost st f_name, outermost st g_name, (gotcha_get_wrappee st 3, gotcha_get_wrappee st 1, gotcha_get_wrappee st 2),
  (p_mem (s_p st) 65576, p_mem (s_p st) 65584, p_mem (s_p st) 65592)).
Example hist1_run : rs_of (demo_run hist1) = [RCode GOTCHA_FUNCTION_NOT_FOUND; RCode GOTCHA_SUCCESS; RCode GOTCHA_SUCCESS] /\
  obs1 (st_of (demo_run hist1)) = (Ok (Some 21), Ok (Some 12), (Ok (Ptr 11), Ok (Ptr 66048), Ok Uninit), (21, 21, 12)).
Proof. vm_compute. auto. Qed.
Example hist2_run : obs1 (st_of (demo_run hist2)) = (Ok (Some 21), Ok (Some 12), (Ok (Ptr 11), Ok (Ptr 66048), Ok (Ptr 1048832)), (21, 21, 12)).
Proof. vm_compute. auto. Qed.

(** the stacks of these histories *)
Example hist1_stack : stack demo_env demo_libs hist1 f_name = [mkE n_b 21 3; mkE n_a 11 1] /\ stack demo_env demo_libs hist1 g_name = [mkE n_a 12 2] /\
  original demo_env demo_libs hist1 f_name = Some 66048 /\ original demo_env demo_libs hist1 g_name = None /\
  original demo_env demo_libs hist2 g_name = Some 1048832.
Proof. vm_compute. auto. Qed.
(** C08, C10: g is found by the second lookup *)
Example hist2_found : found_first demo_env (exports demo_env) demo_libs hist2 g_name 1048832 /\ found_first demo_env (exports demo_env) demo_libs hist2 f_name 66048.
Proof.
  split.
  - exists (hist1 ++ [OLoad [g_lib] mem1]), OFinish, []. split; [reflexivity|]. split; [left; split; [reflexivity|vm_compute; discriminate]|]. split; [vm_compute; reflexivity|].
    intros k1 p k2 E H. destruct k1 as [|o1 k1]; [injection E as <- _; vm_compute; reflexivity|]. injection E as <- E.
    destruct k1 as [|o2 k1]; [injection E as <- _; vm_compute; reflexivity|]. injection E as <- E.
    destruct k1 as [|o3 k1]; [injection E as <- _; vm_compute; reflexivity|]. injection E as <- E.
    destruct k1 as [|o4 k1]; [|destruct k1; discriminate]. injection E as <- _. exfalso.
    destruct H as [[H _]|[H _]]; [discriminate|]. apply H. vm_compute. discriminate.
  - exists [], (OWrap [mkUB f_name 11 1; mkUB g_name 12 2] (Some n_a)), (tl hist2). split; [reflexivity|]. split; [right; split; [intros H; apply H; reflexivity|vm_compute; discriminate]|].
    split; [vm_compute; reflexivity|]. intros [|] p k2 E; discriminate.
Qed.

(** *** wrapping main *)
(** "a" wraps main with default priority, "b" with a lower one *)
Definition hist_main : list op := [OSetPriority n_b (-5); OWrap [mkUB n_main 31 5] (Some n_a); OWrap [mkUB n_main 32 6] (Some n_b)].
Example hist_main_ok : process_ok demo_env demo_libs hist_main /\ fresh demo_env hist_main /\ main_bound hist_main /\
  (forall t v, In (OSetPriority t v) hist_main -> t <> n_gotcha /\ v <= -1).
Proof.
  split; [process|]. split; [apply freshb_ok; vm_compute; reflexivity|]. split; [left; reflexivity|].
  intros t v [H|[H|[H|[]]]]; try discriminate. injection H as <- <-. split; [discriminate|lia].
Qed.
Example hist_main_entry : internal_libc_start_main demo_env (st_of (demo_run hist_main)) = Ok (Uninit, Ptr 31) /\
  gotcha_get_wrappee (st_of (demo_run hist_main)) 5 = Ok (Ptr 32) /\ stack demo_env demo_libs hist_main n_main = [mkE n_gotcha 804 904; mkE n_a 31 5; mkE n_b 32 6].
Proof. vm_compute. auto. Qed.

(** *** dlsym: the world of the examples.  The real dlsym finds f and g; the caller is in demo_lib. *)
Definition demo_world : dlworld :=
  mkDW (fun h n => if cstr_eqb n f_name then 66048 else if cstr_eqb n g_name then (if h =? 2 then 1048832 else 77) else 0)
       (fun n => match n with Some s => if cstr_eqb s (of_string "libg.so") then 2 else 0 | None => 0 end) 65600.
Definition hist_dl : list op := [OWrap [mkUB f_name 11 1] (Some n_a); OLoad [g_lib] mem1; OFinish].
Example hist_dl_ok : process_ok demo_env demo_libs hist_dl /\ fresh demo_env hist_dl /\ existsb is_api hist_dl = true /\
  installed demo_env hist_dl f_name = [mkE n_a 11 1] /\ ~ wrapped demo_env hist_dl g_name /\ found_first demo_env (exports demo_env) demo_libs hist_dl f_name 66048 /\
  dw_dlsym demo_world 1 f_name = 66048.
Proof.
  split; [process|]. split; [apply freshb_ok; vm_compute; reflexivity|]. split; [reflexivity|]. split; [reflexivity|]. split; [intros H; apply H; reflexivity|]. split; [|reflexivity].
  exists [], (OWrap [mkUB f_name 11 1] (Some n_a)), (tl hist_dl). split; [reflexivity|]. split; [right; split; [intros H; apply H; reflexivity|vm_compute; discriminate]|].
  split; [vm_compute; reflexivity|]. intros [|] p k2 E; discriminate.
Qed.
Example hist_dl_caller : caller_in demo_env (st_of (demo_run hist_dl)) demo_world demo_lib [g_lib].
Proof.
  exists [], (mkPhi (of_string "libd.so") 65536 [mkPhdr PT_LOAD 0 4096]), [mkPhi (of_string "libg.so") 1048576 [mkPhdr PT_LOAD 0 4096]], [].
  split; [vm_compute; reflexivity|]. split; [intros j []|].
  split; [exists (mkPhdr PT_LOAD 0 4096); split; [left; reflexivity|split; [reflexivity|vm_compute; intuition discriminate]]|].
  split; [intros j [<-|[]] ph [<-|[]] _; vm_compute; intuition discriminate|]. split; [vm_compute; reflexivity|]. split; [reflexivity|]. split; [reflexivity|]. intros m' [].
Qed.
Example hist_dl_next : dlsym_wrapper demo_env demo_world (st_of (demo_run hist_dl)) RTLD_NEXT g_name = Ok (DReturn 1048832) /\
  dlsym_wrapper demo_env demo_world (st_of (demo_run hist_dl)) 1 g_name = Ok (DReturn 77) /\
  dlsym_wrapper demo_env demo_world (st_of (demo_run hist_dl)) 1 f_name = Ok (DReturn 11).
Proof. vm_compute. auto. Qed.

(** C18: with the filter "libg" the library libd.so is rejected and keeps its slots *)
Definition hist_filter : list op := [OFilter (FName (Some (of_string "libg"))); OWrap [mkUB f_name 11 1] (Some n_a)].
Example hist_filter_ok : process_ok demo_env demo_libs hist_filter /\ slot relocs demo_lib f_name 65576 /\
  p_filter (s_p (st_of (demo_run hist_filter))) = FName (Some (of_string "libg")) /\ p_mem (s_p (st_of (demo_run hist_filter))) 65576 = 66048.
Proof.
  split; [process|]. split; [exists 40; split; [vm_compute; auto|reflexivity]|]. vm_compute. auto.
Qed.
Example hist_filter_rejected : ~ accepted (FName (Some (of_string "libg"))) demo_libs demo_lib.
Proof. intros (pre & rest & E & H). vm_compute in H. discriminate. Qed.

(** *** Refutations *)
(** C03: two tools of the same (default) priority wrap f; the first one is the outermost wrapper, not the
    innermost one. *)
Definition hist_tie : list op := [OWrap [mkUB f_name 11 1] (Some n_a); OWrap [mkUB f_name 21 3] (Some n_b)].
Theorem C03_fifo_ties_refuted : exists e maps mem ops st rs n x y,
  process_ok e maps ops /\ fresh e ops /\ run e (init_state maps mem) ops = Ok (st, rs) /\
  installed e ops n = [x; y] /\ last_set ops (en_tool x) = last_set ops (en_tool y) /\ en_tool x <> en_tool y /\
  outermost st n = Ok (Some (en_wrapper x)) /\
  gotcha_get_wrappee st (en_handle x) = Ok (Ptr (en_wrapper y)) /\ gotcha_get_wrappee st (en_handle y) = Ok (Ptr 66048).
Proof.
  exists demo_env, demo_libs, demo_mem, hist_tie, (st_of (demo_run hist_tie)), (rs_of (demo_run hist_tie)), f_name, (mkE n_a 11 1), (mkE n_b 21 3).
  split; [process|]. split; [apply freshb_ok; vm_compute; reflexivity|]. split; [refine (run_of (demo_run hist_tie) _); vm_compute; reflexivity|].
  split; [reflexivity|]. split; [reflexivity|]. split; [discriminate|]. vm_compute. auto.
Qed.
Print Assumptions C03_fifo_ties_refuted.

(** C09: no loaded library exports g, nor main; only the first binding of g is reported. *)
Definition hist_missing : list op := [OWrap [mkUB g_name 11 1] (Some n_a); OWrap [mkUB g_name 21 3] (Some n_b); OWrap [mkUB n_main 31 5] (Some n_a)].
Theorem C09_return_code_refuted : exists e maps mem ops st,
  process_ok e maps ops /\ fresh e ops /\
  (forall u, In u (user_binds ops) -> first_export (exports e) (maps_after maps ops) (ub_name u) = None) /\
  run e (init_state maps mem) ops = Ok (st, [RCode GOTCHA_FUNCTION_NOT_FOUND; RCode GOTCHA_SUCCESS; RCode GOTCHA_SUCCESS]).
Proof.
  exists demo_env, demo_libs, demo_mem, hist_missing, (st_of (demo_run hist_missing)).
  split; [process|]. split; [apply freshb_ok; vm_compute; reflexivity|]. split.
  - intros u [<-|[<-|[<-|[]]]]; vm_compute; reflexivity.
  - assert (H : rs_of (demo_run hist_missing) = [RCode GOTCHA_FUNCTION_NOT_FOUND; RCode GOTCHA_SUCCESS; RCode GOTCHA_SUCCESS]) by (vm_compute; reflexivity).
    rewrite <- H. refine (run_of (demo_run hist_missing) _). vm_compute. reflexivity.
Qed.
Print Assumptions C09_return_code_refuted.

(** C11: after the second gotcha_wrap of the same binding the wrapper's wrappee is the wrapper itself. *)
Definition hist_again : list op := [OWrap [mkUB f_name 11 1] (Some n_a); OWrap [mkUB f_name 11 1] (Some n_a)].
Theorem C11_rewrap_refuted : exists e maps mem ubs tool st rs h w,
  process_ok e maps [OWrap ubs tool; OWrap ubs tool] /\ fresh e [OWrap ubs tool] /\
  run e (init_state maps mem) [OWrap ubs tool; OWrap ubs tool] = Ok (st, rs) /\
  outermost st f_name = Ok (Some w) /\ In (mkUB f_name w h) ubs /\ gotcha_get_wrappee st h = Ok (Ptr w).
Proof.
  exists demo_env, demo_libs, demo_mem, [mkUB f_name 11 1], (Some n_a), (st_of (demo_run hist_again)), (rs_of (demo_run hist_again)), 1, 11.
  split; [process|]. split; [apply freshb_ok; vm_compute; reflexivity|]. split; [refine (run_of (demo_run hist_again) _); vm_compute; reflexivity|].
  split; [vm_compute; reflexivity|]. split; [left; reflexivity|vm_compute; reflexivity].
Qed.
Print Assumptions C11_rewrap_refuted.

(** C12: bound together with main, f is not redirected; bound alone, it is. *)
Definition hist_with : list op := [OWrap [mkUB n_main 31 5; mkUB f_name 11 1] (Some n_a)].
Definition hist_without : list op := [OWrap [mkUB f_name 11 1] (Some n_a)].
Theorem C12_main_together_refuted : exists e maps mem um uf tool st rs st' rs' m x,
  process_ok e maps [OWrap [um; uf] tool] /\ fresh e [OWrap [um; uf] tool] /\ ub_name um = n_main /\
  In m maps /\ slot relocs m (ub_name uf) x /\
  run e (init_state maps mem) [OWrap [uf] tool] = Ok (st, rs) /\ p_mem (s_p st) x = ub_wrapper uf /\
  run e (init_state maps mem) [OWrap [um; uf] tool] = Ok (st', rs') /\ p_mem (s_p st') x = mem x /\ mem x <> ub_wrapper uf.
Proof.
  exists demo_env, demo_libs, demo_mem, (mkUB n_main 31 5), (mkUB f_name 11 1), (Some n_a), (st_of (demo_run hist_without)), (rs_of (demo_run hist_without)),
    (st_of (demo_run hist_with)), (rs_of (demo_run hist_with)), demo_lib, 65576.
  split; [process|]. split; [apply freshb_ok; vm_compute; reflexivity|]. split; [reflexivity|]. split; [left; reflexivity|].
  split; [exists 40; split; [vm_compute; auto|reflexivity]|]. split; [refine (run_of (demo_run hist_without) _); vm_compute; reflexivity|]. split; [vm_compute; reflexivity|].
  split; [refine (run_of (demo_run hist_with) _); vm_compute; reflexivity|]. split; [vm_compute; reflexivity|vm_compute; discriminate].
Qed.
Print Assumptions C12_main_together_refuted.

(** C13: a wrapper of main installed by a tool of priority 5 is not entered. *)
Definition hist_main5 : list op := [OSetPriority n_a 5; OWrap [mkUB n_main 31 5] (Some n_a); OWrap [mkUB n_main 32 6] (Some n_b)].
Theorem C13_main_wrappers_entered_refuted : exists e maps mem ops st rs w x y,
  process_ok e maps ops /\ fresh e ops /\ run e (init_state maps mem) ops = Ok (st, rs) /\
  outermost st n_main = Ok (Some (en_wrapper x)) /\ In x (installed e ops n_main) /\ In y (installed e ops n_main) /\ en_wrapper x <> en_wrapper y /\
  internal_libc_start_main e st = Ok (w, Ptr (en_wrapper y)) /\ gotcha_get_wrappee st (en_handle y) = Ok Uninit.
Proof.
  exists demo_env, demo_libs, demo_mem, hist_main5, (st_of (demo_run hist_main5)), (rs_of (demo_run hist_main5)), Uninit, (mkE n_a 31 5), (mkE n_b 32 6).
  split; [process|]. split; [apply freshb_ok; vm_compute; reflexivity|]. split; [refine (run_of (demo_run hist_main5) _); vm_compute; reflexivity|].
  split; [vm_compute; reflexivity|]. split; [vm_compute; auto|]. split; [vm_compute; auto|]. split; [discriminate|]. vm_compute. auto.
Qed.
Print Assumptions C13_main_wrappers_entered_refuted.

(** C15: with two tools, dlsym returns the function itself and all wrappers are bypassed. *)
Theorem C15_dlsym_wrapped_refuted : exists e maps mem ops st rs w h n a x,
  process_ok e maps ops /\ fresh e ops /\ existsb is_api ops = true /\ run e (init_state maps mem) ops = Ok (st, rs) /\
  original e maps ops n = Some a /\ dw_dlsym w h n = a /\ outermost st n = Ok (Some x) /\ x <> a /\
  dlsym_wrapper e w st h n = Ok (DReturn a).
Proof.
  exists demo_env, demo_libs, demo_mem, hist_tie, (st_of (demo_run hist_tie)), (rs_of (demo_run hist_tie)), demo_world, 1, f_name, 66048, 11.
  split; [process|]. split; [apply freshb_ok; vm_compute; reflexivity|]. split; [reflexivity|]. split; [refine (run_of (demo_run hist_tie) _); vm_compute; reflexivity|].
  split; [vm_compute; reflexivity|]. split; [reflexivity|]. split; [vm_compute; reflexivity|]. split; [discriminate|vm_compute; reflexivity].
Qed.
Print Assumptions C15_dlsym_wrapped_refuted.
