(** What memory held before (C79). *)
From Verif Require Import Base ListFacts HashModel HashProofs SpecHash ElfModel SpecElf ToolModel CoreModel SpecCore SpecRun SpecSync SpecMemory CoreMaps CoreFacts MemoryProofs
  PropsElf Demo PropsCoreEx PropsSyncEx PropsStall.
From Coq Require String.
Import String.StringSyntax.
Open Scope string_scope.
Open Scope list_scope.
Open Scope Z_scope.

(** C79: Whatever memory holds at the start and after each load and unload - addresses of functions, of the dynamic linker's
    resolver, of another tool's wrappers - GOTCHA does the same: the same faults, results, stores, mprotect calls, bindings and wrappees.  Any
    relation between the contents of words of the two histories is kept, if it allows equal contents. *)
Theorem C79_memory : forall e maps mem mem' ops ops' (Q : Z -> Z -> Z -> Prop), (forall x v, Q x v v) -> Forall2 (same_load Q) ops ops' -> (forall x, Q x (mem x) (mem' x)) ->
  match run e (init_state maps mem) ops, run e (init_state maps mem') ops' with
  | Ok (st, rs), Ok (st', rs') => rs = rs' /\ same_but_memory Q st st'
  | Fault k, Fault k' => k = k'
  | _, _ => False
  end.
Proof.
  intros e maps mem mem' ops ops' Q Qr L H. assert (R0 : same_but_memory Q (init_state maps mem) (init_state maps mem')) by (constructor; auto).
  pose proof (m_run Q Qr e ops ops' L _ _ R0) as K. destruct (run e (init_state maps mem) ops) as [[st rs]|], (run e (init_state maps mem') ops') as [[st' rs']|]; cbn in K; try contradiction; [|exact K].
  destruct K as [K1 K2]. auto.
Qed.
Print Assumptions C79_memory.

(** In particular the wrappees, the outermost wrappers and the answers of dlsym do not depend on what the loader leaves in memory, whether it has
    bound the slots or not. *)
Theorem C79_observed : forall e maps mem mem' ops ops' st rs, Forall2 (same_load (fun _ _ _ => True)) ops ops' -> run e (init_state maps mem) ops = Ok (st, rs) ->
  exists st', run e (init_state maps mem') ops' = Ok (st', rs) /\ p_log (s_p st') = p_log (s_p st) /\
  (forall n, outermost st' n = outermost st n) /\ (forall h, gotcha_get_wrappee st' h = gotcha_get_wrappee st h) /\
  (forall w h n, dlsym_wrapper e w st' h n = dlsym_wrapper e w st h n) /\
  internal_main_target e st' = internal_main_target e st /\ internal_libc_start_main e st' = internal_libc_start_main e st.
Proof.
  intros e maps mem mem' ops ops' st rs L E. pose proof (C79_memory e maps mem mem' ops ops' _ (fun _ _ => I) L (fun _ => I)) as K. rewrite E in K.
  destruct (run e (init_state maps mem') ops') as [[st' rs']|]; [|contradiction]. destruct K as [<- [A B C D F G H I]]. exists st'. split; [reflexivity|].
  split; [auto|]. unfold dlsym_wrapper, internal_main_target, internal_libc_start_main, outermost, gotcha_get_wrappee. rewrite A, C, F. repeat split.
Qed.
Print Assumptions C79_observed.

(** The words that calls and the ends of dlopens write hold the same afterwards whatever memory held before; all others are left alone. *)
Theorem C79_writes : forall e maps mem mem' ops st rs, (forall o, In o ops -> match o with OLoad _ _ | OUnload _ _ => False | _ => True end) ->
  run e (init_state maps mem) ops = Ok (st, rs) ->
  exists st', run e (init_state maps mem') ops = Ok (st', rs) /\
  forall x, p_mem (s_p st') x = p_mem (s_p st) x \/ (p_mem (s_p st) x = mem x /\ p_mem (s_p st') x = mem' x).
Proof.
  intros e maps mem mem' ops st rs Ho E. set (Q := fun x v v' => v' = v \/ (v = mem x /\ v' = mem' x)).
  assert (L : Forall2 (same_load Q) ops ops).
  { clear E. induction ops as [|o l IH]; constructor; [|apply IH; intros; apply Ho; right; auto]. pose proof (Ho o (or_introl eq_refl)) as H. destruct o; try reflexivity; destruct H. }
  pose proof (C79_memory e maps mem mem' ops ops Q (fun _ _ => or_introl eq_refl) L (fun _ => or_intror (conj eq_refl eq_refl))) as K. rewrite E in K.
  destruct (run e (init_state maps mem') ops) as [[st' rs']|]; [|contradiction]. destruct K as [<- K]. exists st'. split; [reflexivity|]. exact (sm_mem _ _ _ K).
Qed.
Print Assumptions C79_writes.

(** hist1 and a load, with the slots bound or unbound: 66048 is f, 4242 stands for the resolver *)
Definition lazy_mem : Z -> Z := fun x => if x =? 65576 then 4242 else if x =? 65584 then 4242 else 7.
Definition hist_lazy : list op := hist1 ++ [OLoad [lib_e] (fun x => if x =? 131112 then 4242 else 9); OFinish].
Notation lazy_run ops := (run demo_env (init_state demo_libs lazy_mem) ops).
Example C79_ex : Forall2 (same_load (fun _ _ _ => True)) hist_l0 hist_lazy /\ demo_mem 65576 <> lazy_mem 65576 /\ (forall o, In o hist1 -> match o with OLoad _ _ | OUnload _ _ => False | _ => True end) /\
  p_mem (s_p (st_of (demo_run hist1))) 65576 = 21 /\ p_mem (s_p (st_of (lazy_run hist1))) 65576 = 21 /\
  p_mem (s_p (st_of (demo_run hist_l0))) 131112 = 21 /\ p_mem (s_p (st_of (lazy_run hist_lazy))) 131112 = 21 /\
  gotcha_get_wrappee (st_of (lazy_run hist_lazy)) 1 = Ok (Ptr 66048).
Proof.
  split; [repeat constructor|]. split; [vm_compute; discriminate|]. split; [intros o [<-|[<-|[<-|[]]]]; exact I|]. vm_compute. repeat split.
Qed.
