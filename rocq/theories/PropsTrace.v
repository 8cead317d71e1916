(** C67: while an operation of GOTCHA is at work, other threads and signal handlers that call wrapped functions
    find every published wrapper's chain complete. *)
From Verif Require Import Base ListFacts HashModel HashProofs SpecHash HashTrace ElfModel ToolModel CoreModel TraceModel SpecCore SpecRun SpecTrace CoreRel CoreStep CoreMain CoreSpec CoreFacts CoreHist CoreApi CoreApi2 TraceErase TraceProofs TraceMain PropsElf Demo PropsCoreEx.
From Coq Require String.
Import String.StringSyntax.
Open Scope string_scope.
Open Scope list_scope.
Open Scope Z_scope.

(** the operation with its stores does what the operation does: it succeeds and fails alike, and its stores, one
    after the other, lead from what others see before to what they see afterwards *)
Theorem C67_stores_make_the_operation : forall e maps mem ops o st rs,
  process_ok e maps ops -> gotcha_op o -> run e (init_state maps mem) ops = Ok (st, rs) ->
  (forall f, step e st o = Fault f -> step_t e st o = Fault f) /\
  (forall st' r, step e st o = Ok (st', r) ->
     exists evs, step_t e st o = Ok ((st', r), evs) /\
       (forall h, v_handles (moment st evs (length evs)) h = b_handles (s_b st') h) /\
       (forall i ib, nth_error (b_ib (s_b st')) i = Some ib -> v_wrappee (moment st evs (length evs)) i = ib_wrappee ib) /\
       (forall x, v_mem (moment st evs (length evs)) x = p_mem (s_p st') x)).
Proof.
  intros e maps mem ops o st rs P G ER. pose proof (run_hok e ops _ _ _ ER ltac:(unfold hok; cbn; discriminate)) as HK.
  pose proof (step_mir e st o HK ltac:(destruct o; try exact I; destruct G)) as M. split.
  - intros f E. rewrite E in M. exact M.
  - intros st' r E. rewrite E in M. destruct M as (evs & Ev & V1 & V2 & V3). exists evs. split; [exact Ev|]. unfold moment. rewrite firstn_all. split; [exact V1|]. split; [|exact V3].
    intros i ib Hi. rewrite V2. cbn [fst vis_of v_wrappee]. rewrite Hi. reflexivity.
Qed.
Print Assumptions C67_stores_make_the_operation.

(** at every moment [k] of an operation, for the wrappers [l k n] of every function [n] - those from before the
    operation, and a growing part of those there are after it - every wrapper's wrappee is the next wrapper and the
    innermost one's is the original function; wrappers stored into GOTs by then are among them.  Only when dlopen has
    brought the original function of wrappers installed before may it be missing still, before the first GOT store. *)
Theorem C67_every_moment : forall e maps mem ops o st rs st' r evs,
  process_ok e maps (ops ++ [o]) -> fresh e (ops ++ [o]) -> gotcha_op o ->
  run e (init_state maps mem) ops = Ok (st, rs) -> step_t e st o = Ok ((st', r), evs) ->
  exists (l : nat -> cstr -> list entry) (orig : nat -> cstr -> option Z),
    (forall k n, subseq (stack e maps ops n) (l k n) /\ subseq (l k n) (stack e maps (ops ++ [o]) n)) /\
    (forall j k n, (j <= k)%nat -> subseq (l j n) (l k n)) /\
    (forall k n, vwired (moment st evs k) (l k n) (orig k n)) /\
    (forall k n, orig k n = original e maps (ops ++ [o]) n \/
       (o = OFinish /\ orig k n = None /\ original e maps ops n = None /\ forall x w, ~ In (WSlot x w) (firstn k evs))) /\
    (forall k x w, In (WSlot x w) (firstn k evs) ->
       exists m n, accepted (p_filter (s_p st)) (p_maps (s_p st)) m /\ slot relocs m n x /\ In w (map en_wrapper (l k n))).
Proof. exact op_moments. Qed.
Print Assumptions C67_every_moment.

(** what a GOT slot holds at any moment: what it held before, or a wrapper from which the original function of the
    slot's symbol can be reached at that very moment *)
Theorem C67_slots_at_every_moment : forall e maps mem ops o st rs st' r evs k x,
  process_ok e maps (ops ++ [o]) -> fresh e (ops ++ [o]) -> gotcha_op o ->
  run e (init_state maps mem) ops = Ok (st, rs) -> step_t e st o = Ok ((st', r), evs) ->
  v_mem (moment st evs k) x = p_mem (s_p st) x \/
  exists m n s1 y s2, accepted (p_filter (s_p st)) (p_maps (s_p st)) m /\ slot relocs m n x /\ v_mem (moment st evs k) x = en_wrapper y /\
    subseq (s1 ++ y :: s2) (stack e maps (ops ++ [o]) n) /\ vwired (moment st evs k) (s1 ++ y :: s2) (original e maps (ops ++ [o]) n).
Proof.
  intros e maps mem ops o st rs st' r evs k x P F G ER ES. destruct (op_moments _ _ _ _ _ _ _ _ _ _ P F G ER ES) as (l & og & A & _ & C & D & S).
  destruct (vapplys_mem x (firstn k evs) (vis_of st)) as [E|E]; [left; exact E|]. right. fold (moment st evs k) in E.
  destruct (S _ _ _ E) as (m & n & Ha & Hs & Hw). apply in_map_iff in Hw. destruct Hw as (y & Ey & Hy). destruct (in_split _ _ Hy) as (s1 & s2 & El).
  exists m, n, s1, y, s2. split; [exact Ha|]. split; [exact Hs|]. split; [congruence|]. rewrite <- El. split; [apply A|].
  destruct (D k n) as [<-|(_ & _ & _ & N)]; [apply C|]. exfalso. eapply N. exact E.
Qed.
Print Assumptions C67_slots_at_every_moment.

(** calls that go on while GOTCHA is at work.  [l k n]: the wrappers of [n] at moment [k], containing those installed
    before and those stored into GOTs by then.  A call that enters one of them at moment [k] and asks for the
    wrappees at arbitrary later moments of the operation passes wrappers of [n] only, each at most once and in the
    order of the stack after the operation, and leaves them for the original function (or, if that had not been
    found when the operation began or is not found at all, with no function); at every moment every such wrapper
    has a wrappee to ask for *)
Theorem C67_calls_while_at_work : forall e maps mem ops o st rs st' r evs,
  process_ok e maps (ops ++ [o]) -> fresh e (ops ++ [o]) -> gotcha_op o ->
  run e (init_state maps mem) ops = Ok (st, rs) -> step_t e st o = Ok ((st', r), evs) ->
  exists l : nat -> cstr -> list entry,
    (forall k n x, In x (stack e maps ops n) -> In x (l k n)) /\
    (forall k a w, In (WSlot a w) (firstn k evs) ->
       exists m n, accepted (p_filter (s_p st)) (p_maps (s_p st)) m /\ slot relocs m n a /\ In w (map en_wrapper (l k n))) /\
    (forall j k n x, (j <= k)%nat -> In x (l j n) -> In x (l k n) /\ vwrappee (moment st evs k) (en_handle x) <> None) /\
    (forall k n x path p, In x (l k n) ->
       (forall y, In y (stack e maps (ops ++ [o]) n) -> original e maps (ops ++ [o]) n <> Some (en_wrapper y)) ->
       call (moment st evs) (stack e maps (ops ++ [o]) n) k x path p ->
       subseq path (stack e maps (ops ++ [o]) n) /\ hd_error path = Some x /\
       ((exists a, original e maps (ops ++ [o]) n = Some a /\ p = Ptr a) \/ (p = Uninit /\ original e maps ops n = None))).
Proof.
  intros e maps mem ops o st rs st' r evs P F G ER ES. destruct (op_moments _ _ _ _ _ _ _ _ _ _ P F G ER ES) as (l & og & A & B & C & D & S).
  exists l. split; [intros k n x Hx; eapply subseq_In; [apply (A k n)|exact Hx]|]. split; [exact S|]. split.
  { intros j k n x Hjk Hx. assert (Hx' : In x (l k n)) by (eapply subseq_In; [apply (B j k n Hjk)|exact Hx]). split; [exact Hx'|].
    destruct (vwired_at _ _ _ _ (C k n) Hx') as (q1 & q2 & _ & E). rewrite E. discriminate. }
  intros k n x path p Hx NO HC. destruct (stack_nodup e maps (ops ++ [o]) n (po_env _ _ _ P) F) as [ND _].
  destruct (call_path (moment st evs) (fun k => l k n) (stack e maps (ops ++ [o]) n) (fun k => og k n) (original e maps (ops ++ [o]) n) ND) with (k := k) (x := x) (path := path) (p := p)
    as (s1 & s2 & rest & Es & -> & Sr & k' & ->); auto.
  - intros j. apply A.
  - intros j. destruct (D j n) as [H|(_ & H & _)]; auto.
  - split; [rewrite Es; clear - Sr; induction s1; cbn; constructor; auto|]. split; [reflexivity|].
    destruct (D k' n) as [H|(_ & H & H' & _)]; rewrite H; [|right; auto]. destruct (original e maps (ops ++ [o]) n) as [a|] eqn:Ea; [left; eauto|right]. split; [reflexivity|].
    destruct (original e maps ops n) as [b|] eqn:Eb; [|reflexivity]. exfalso. apply original_found in Eb. apply (found_stays e maps ops [o]) in Eb. apply original_found in Eb. congruence.
Qed.
Print Assumptions C67_calls_while_at_work.

(** *** examples *)
(** tool "c" of lower priority than "a" and "b" wraps f, which they have wrapped, and g, which is missing *)
Definition n_c : cstr := of_string "c".
Definition hist67 : list op := hist1 ++ [OSetPriority n_c (-2)].
Definition op67 : op := OWrap [mkUB f_name 31 4; mkUB g_name 32 5] (Some n_c).
Definition evs_of {A} (r : tmon A) : list wevent := match r with Ok (_, w) => w | Fault _ => [] end.
Notation st67 := (st_of (demo_run hist67)).
Notation evs67 := (evs_of (step_t demo_env st67 op67)).
Example C67_meets : process_ok demo_env demo_libs (hist67 ++ [op67]) /\ fresh demo_env (hist67 ++ [op67]) /\ gotcha_op op67 /\
  is_ok (demo_run hist67) = true /\ is_ok (step_t demo_env st67 op67) = true /\
  (forall y, In y (stack demo_env demo_libs (hist67 ++ [op67]) f_name) -> original demo_env demo_libs (hist67 ++ [op67]) f_name <> Some (en_wrapper y)).
Proof.
  split; [process|]. split; [apply freshb_ok; vm_compute; reflexivity|]. split; [exact I|]. split; [vm_compute; reflexivity|]. split; [vm_compute; reflexivity|].
  intros y Hy. vm_compute in Hy. destruct Hy as [<-|[<-|[<-|[]]]]; vm_compute; discriminate.
Qed.
(** the stores of that operation: the chains are built from the inside before anything outside points to them *)
Example C67_stores : evs67 = [WHandle 4 None; WHandle 5 None; WHandle 4 (Some 5%nat); WHandle 5 (Some 6%nat);
  WWrappee 5 (Ptr 66048); WWrappee 2 (Ptr 31); WWrappee 6 Uninit; WWrappee 3 (Ptr 32)].
Proof. vm_compute. reflexivity. Qed.
(** a call of f that enters the wrapper of "b" before the operation and the wrapper of "a" when the new wrapper is
    being installed passes the new wrapper if it asks late enough, and does not if it asks before *)
Example C67_call_late : call (moment st67 evs67) (stack demo_env demo_libs (hist67 ++ [op67]) f_name) 0 (mkE n_b 21 3)
  [mkE n_b 21 3; mkE n_a 11 1; mkE n_c 31 4] (Ptr 66048).
Proof.
  eapply (call_next _ _ 0 0 _ (mkE n_a 11 1)); [lia|vm_compute; reflexivity|vm_compute; auto|].
  eapply (call_next _ _ 0 6 _ (mkE n_c 31 4)); [lia|vm_compute; reflexivity|vm_compute; auto|].
  eapply (call_out _ _ 6 6); [lia|vm_compute; reflexivity|]. intros y Hy. vm_compute in Hy. destruct Hy as [<-|[<-|[<-|[]]]]; discriminate.
Qed.
Example C67_call_early : call (moment st67 evs67) (stack demo_env demo_libs (hist67 ++ [op67]) f_name) 0 (mkE n_b 21 3)
  [mkE n_b 21 3; mkE n_a 11 1] (Ptr 66048).
Proof.
  eapply (call_next _ _ 0 0 _ (mkE n_a 11 1)); [lia|vm_compute; reflexivity|vm_compute; auto|].
  eapply (call_out _ _ 0 5); [lia|vm_compute; reflexivity|]. intros y Hy. vm_compute in Hy. destruct Hy as [<-|[<-|[<-|[]]]]; discriminate.
Qed.
(** the first operation of all, with GOT stores; and the one after dlopen *)
Example C67_first : let st := init_state demo_libs demo_mem in let evs := evs_of (step_t demo_env st (OWrap [mkUB f_name 11 1] (Some n_a))) in
  existsb (fun w => match w with WSlot _ _ => true | _ => false end) evs = true /\ v_mem (moment st evs (length evs)) 65576 = 11.
Proof. vm_compute. auto. Qed.
Example C67_dlopen : evs_of (step_t demo_env (st_of (demo_run (hist1 ++ [OLoad [g_lib] mem1]))) OFinish) = [WWrappee 3 (Ptr 1048832)].
Proof. vm_compute. reflexivity. Qed.

(** a handle variable that is used again (not fresh): after the first store of gotcha_wrap the installed wrapper 11 of
    f, still called through the GOT, asks for its wrappee with a NULL handle; afterwards wrapper 31's wrappee is
    wrapper 31 *)
Theorem C67_reused_handle_refuted : exists o, gotcha_op o /\ process_ok demo_env demo_libs (hist1 ++ [o]) /\
  In (mkE n_a 11 1) (stack demo_env demo_libs hist1 f_name) /\
  is_ok (step_t demo_env (st_of (demo_run hist1)) o) = true /\
  vwrappee (moment (st_of (demo_run hist1)) (evs_of (step_t demo_env (st_of (demo_run hist1)) o)) 0) 1 = Some (Ptr 66048) /\
  vwrappee (moment (st_of (demo_run hist1)) (evs_of (step_t demo_env (st_of (demo_run hist1)) o)) 1) 1 = None /\
  vwrappee (moment (st_of (demo_run hist1)) (evs_of (step_t demo_env (st_of (demo_run hist1)) o)) 4) 1 = Some (Ptr 31).
Proof.
  exists (OWrap [mkUB f_name 31 1] (Some n_c)). split; [exact I|]. split; [process|]. split; [vm_compute; auto|]. vm_compute. auto.
Qed.
Print Assumptions C67_reused_handle_refuted.
