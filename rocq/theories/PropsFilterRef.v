(** C81: gotcha_filter_libraries_by_name takes the name as a string; GOTCHA keeps the caller's pointer. *)
From Verif Require Import Base ListFacts HashModel ElfModel ToolModel CoreModel SpecCore SpecRun CoreMaps CoreRel CoreMicro FilterRef SpecFilterRef PropsElf Demo PropsCoreEx.
From Coq Require String.
Import String.StringSyntax.
Open Scope string_scope.
Open Scope list_scope.
Open Scope Z_scope.

(** no operation but OFilter changes the filter *)
Lemma step_filter e st o st' r : step e st o = Ok (st', r) -> is_filter o = false -> p_filter (s_p st') = p_filter (s_p st).
Proof.
  intros E F. assert (G : gotcha_op o \/ ~ gotcha_op o) by (destruct o; cbn; auto). destruct G as [G|G].
  - destruct (step_mics _ _ _ _ _ G E) as [(-> & _)|(st1 & tr & I & _ & M & _)]; [reflexivity|]. apply mics_frame in M. destruct M as (_ & _ & ->).
    destruct I as [->|(_ & _ & _ & _ & _ & _ & -> & _)]; reflexivity.
  - destruct o; cbn [gotcha_op] in G; try (exfalso; apply G; exact I); try discriminate F; cbn [step] in E; injection E as <- _; reflexivity.
Qed.
Lemma set_filter_same st : set_filter (p_filter (s_p st)) st = st.
Proof. destruct st as [i m b l [mp me lo fi]]. reflexivity. Qed.
Lemma set_filter_twice f g st : set_filter f (set_filter g st) = set_filter f st.
Proof. reflexivity. Qed.

(** the state reached, with the filter as it reads *)
Lemma view_step e st buf p o st' x : step e (view (mkF st buf p)) o = Ok (st', x) -> view (mkF st' buf (if is_filter o then None else p)) = st'.
Proof.
  intros E. destruct (is_filter o) eqn:F; [reflexivity|]. destruct p as [b|]; [|reflexivity]. unfold view at 1. cbn [f_ptr f_buf f_core].
  apply step_filter in E; [|exact F]. cbn [view f_ptr f_buf f_core set_filter s_p set_p p_filter] in E. rewrite <- E. apply set_filter_same.
Qed.
Lemma is_filter_cur {A} o (a b : A) : (match o with OFilter _ => a | _ => b end) = if is_filter o then a else b.
Proof. destruct o; reflexivity. Qed.
Lemma frun_read e : forall ops st buf p,
  match run e (view (mkF st buf p)) (map fst (name_read buf p ops)) with
  | Ok (st', rs) => exists s, frun e (mkF st buf p) ops = Ok (s, results_of (name_read buf p ops) rs) /\ view s = st'
  | Fault f => frun e (mkF st buf p) ops = Fault f
  end.
Proof.
  induction ops as [|o ops IH]; intros st buf p; [cbn; eexists; split; reflexivity|]. destruct o as [o|b|b s].
  - cbn [name_read map fst run frun fstep f_buf f_ptr]. rewrite is_filter_cur. destruct (step e (view (mkF st buf p)) o) as [[st1 x]|f] eqn:E; cbn [bind]; [|reflexivity].
    specialize (IH st1 buf (if is_filter o then None else p)). rewrite (view_step _ _ _ _ _ _ _ E) in IH.
    destruct (run e st1 _) as [[st2 rs]|f]; cbn [bind].
    + destruct IH as (s & -> & <-). exists s. split; reflexivity.
    + rewrite IH. reflexivity.
  - cbn [name_read map fst run frun fstep step f_buf f_core bind]. specialize (IH st buf (Some b)).
    assert (V : set_filter (FName (Some (buf b))) (view (mkF st buf p)) = view (mkF st buf (Some b))) by (unfold view; cbn [f_ptr f_buf f_core]; destruct p; reflexivity).
    rewrite V. destruct (run e (view (mkF st buf (Some b))) _) as [[st2 rs]|f]; cbn [bind].
    + destruct IH as (s & -> & <-). exists s. split; reflexivity.
    + rewrite IH. reflexivity.
  - cbn [name_read frun fstep f_core f_buf f_ptr bind]. change (fun x : nat => if Nat.eqb x b then s else buf x) with (put buf b s). specialize (IH st (put buf b s) p). destruct p as [c|].
    + destruct (Nat.eqb_spec c b) as [->|N].
      * cbn [map fst run step bind]. assert (V : set_filter (FName (Some s)) (view (mkF st buf (Some b))) = view (mkF st (put buf b s) (Some b))) by (unfold view; cbn [f_ptr f_buf f_core]; unfold put; rewrite Nat.eqb_refl; reflexivity).
        rewrite V. destruct (run e (view (mkF st (put buf b s) (Some b))) _) as [[st2 rs]|f]; cbn [bind].
        -- destruct IH as (s1 & -> & <-). exists s1. split; reflexivity.
        -- rewrite IH. reflexivity.
      * assert (V : view (mkF st (put buf b s) (Some c)) = view (mkF st buf (Some c))) by (unfold view; cbn [f_ptr f_buf f_core]; unfold put; rewrite (proj2 (Nat.eqb_neq c b) N); reflexivity).
        rewrite V in IH. destruct (run e (view (mkF st buf (Some c))) _) as [[st2 rs]|f]; cbn [bind].
        -- destruct IH as (s1 & -> & <-). exists s1. split; reflexivity.
        -- rewrite IH. reflexivity.
    + change (view (mkF st (put buf b s) None)) with (view (mkF st buf None)) in IH. destruct (run e (view (mkF st buf None)) _) as [[st2 rs]|f]; cbn [bind].
      * destruct IH as (s1 & -> & <-). exists s1. split; reflexivity.
      * rewrite IH. reflexivity.
Qed.

(** In every history GOTCHA behaves as if each write to the buffer of the present filter were a call of
    gotcha_filter_libraries_by_name with the new string. *)
Theorem C81_read_law : forall e maps mem buf ops,
  (forall st rs, run e (init_state maps mem) (map fst (name_read buf None ops)) = Ok (st, rs) ->
     exists s, frun e (finit maps mem buf) ops = Ok (s, results_of (name_read buf None ops) rs) /\ view s = st) /\
  (forall f, run e (init_state maps mem) (map fst (name_read buf None ops)) = Fault f -> frun e (finit maps mem buf) ops = Fault f).
Proof.
  intros e maps mem buf ops. assert (H := frun_read e ops (init_state maps mem) buf None). change (view (mkF (init_state maps mem) buf None)) with (init_state maps mem) in H. split.
  - intros st rs E. rewrite E in H. exact H.
  - intros f E. rewrite E in H. exact H.
Qed.
Print Assumptions C81_read_law.

Lemma kept_tail o ops : name_kept (o :: ops) -> name_kept ops.
Proof. intros K l1 b l2 s l3 ->. apply (K (o :: l1) b l2 s l3). reflexivity. Qed.
(** the buffer [cur] is not written before the filter is changed *)
Definition cur_kept (cur : option nat) (ops : list fop) : Prop :=
  forall b, cur = Some b -> forall l2 s l3, ops = l2 ++ FWrite b s :: l3 -> exists o, In o l2 /\ changes_filter o.
Lemma cur_tail cur o ops : cur_kept cur (o :: ops) -> ~ changes_filter o -> cur_kept cur ops.
Proof. intros K N b -> l2 s l3 ->. destruct (K b eq_refl (o :: l2) s l3 eq_refl) as (o1 & [<-|H] & C); [contradiction|]. exists o1. auto. Qed.
Lemma read_copied : forall ops buf cur, name_kept ops -> cur_kept cur ops ->
  map fst (name_read buf cur ops) = name_copied buf ops /\ Forall (fun x => snd x = true) (name_read buf cur ops).
Proof.
  induction ops as [|o ops IH]; intros buf cur K C; [split; [reflexivity|constructor]|]. destruct o as [o|b|b s]; cbn [name_read name_copied].
  - destruct (IH buf (match o with OFilter _ => None | _ => cur end)) as [M F].
    + eapply kept_tail. exact K.
    + rewrite is_filter_cur. destruct (is_filter o) eqn:I; [intros b [=]|]. eapply cur_tail; [exact C|]. intros [(f & [= ->])|(c & [=])]. discriminate I.
    + cbn [map fst]. rewrite M. split; [reflexivity|]. constructor; [reflexivity|exact F].
  - destruct (IH buf (Some b)) as [M F].
    + eapply kept_tail. exact K.
    + intros b' [= <-] l2 s l3 ->. apply (K [] b l2 s l3). reflexivity.
    + cbn [map fst]. rewrite M. split; [reflexivity|]. constructor; [reflexivity|exact F].
  - set (buf' := fun x => if Nat.eqb x b then s else buf x). destruct (IH buf' cur) as [M F].
    + eapply kept_tail. exact K.
    + eapply cur_tail; [exact C|]. intros [(f & [=])|(c & [=])].
    + destruct cur as [c|]; [|split; assumption]. destruct (Nat.eqb_spec c b) as [->|N]; [|split; assumption]. exfalso.
      destruct (C b eq_refl [] s ops eq_refl) as (o & [] & _).
Qed.
Lemma run_length e : forall ops st st' rs, run e st ops = Ok (st', rs) -> length rs = length ops.
Proof.
  induction ops as [|o ops IH]; intros st st' rs E; cbn [run] in E; [injection E as _ <-; reflexivity|]. iba E as [st1 x]. iba E as [st2 xs]. injection E as _ <-. cbn [length]. f_equal. eapply IH. eassumption.
Qed.
Lemma results_all : forall l rs, Forall (fun x => snd x = true) l -> length rs = length l -> results_of l rs = rs.
Proof.
  induction l as [|[o t] l IH]; intros rs F L; destruct rs as [|x rs]; try discriminate L; [reflexivity|]. inversion F as [|? ? T F']; subst. cbn [snd] in T. subst t. cbn [results_of]. f_equal. apply IH; [exact F'|]. cbn [length] in L. lia.
Qed.

(** If no buffer is written while it is the filter's name, everything is as if GOTCHA had copied the name.  The full claim,
    without the hypothesis, is false: [C81_refuted]. *)
Theorem C81_kept_name_partial : forall e maps mem buf ops, name_kept ops ->
  (forall st rs, run e (init_state maps mem) (name_copied buf ops) = Ok (st, rs) -> exists s, frun e (finit maps mem buf) ops = Ok (s, rs) /\ view s = st) /\
  (forall f, run e (init_state maps mem) (name_copied buf ops) = Fault f -> frun e (finit maps mem buf) ops = Fault f).
Proof.
  intros e maps mem buf ops K. destruct (read_copied ops buf None K) as [M F]; [intros b [=]|]. destruct (C81_read_law e maps mem buf ops) as [A B]. rewrite M in A, B. split; [|exact B].
  intros st rs E. destruct (A st rs E) as (s & R & V). exists s. split; [|exact V]. rewrite R. rewrite results_all; [reflexivity|exact F|].
  rewrite (run_length _ _ _ _ _ E), <- M, map_length. reflexivity.
Qed.
Print Assumptions C81_kept_name_partial.

(** Cases meeting the hypotheses: the name "libd" is written to buffer 0, given, the function f wrapped; then the filter is
    restored and the buffer reused. *)
Definition buf81 : nat -> cstr := fun b => match b with 0%nat => of_string "nowhere" | _ => of_string "libg" end.
Definition fst_of (o : outcome (fstate * list res)) : fstate := match o with Ok (s, _) => s | Fault _ => finit [] (fun _ => 0) buf81 end.
Definition fres_of (o : outcome (fstate * list res)) : list res := match o with Ok (_, l) => l | Fault _ => [] end.
Definition kept81 : list fop := [FWrite 0 (of_string "libd"); FByName 0; FOp (OWrap [mkUB f_name 11 1] (Some n_a)); FOp (OFilter FAlways); FWrite 0 (of_string "libg"); FOp (OWrap [mkUB f_name 21 3] (Some n_b))].
Example C81_kept_ex : name_kept kept81 /\ is_ok (run demo_env (init_state demo_libs demo_mem) (name_copied buf81 kept81)) = true /\
  fres_of (frun demo_env (finit demo_libs demo_mem buf81) kept81) = [RNone; RCode GOTCHA_SUCCESS; RNone; RCode GOTCHA_SUCCESS] /\
  p_mem (s_p (f_core (fst_of (frun demo_env (finit demo_libs demo_mem buf81) kept81)))) 65576 = 11.
Proof.
  split; [|split; [vm_compute; reflexivity|split; vm_compute; reflexivity]].
  intros l1 b l2 s l3 E. unfold kept81 in E. destruct l1 as [|x1 l1]; [discriminate E|]. injection E as _ E. destruct l1 as [|x2 l1].
  - injection E as _ E. destruct l2 as [|y1 l2]; [discriminate E|]. injection E as <- E. destruct l2 as [|y2 l2]; [discriminate E|]. injection E as <- E.
    exists (FOp (OFilter FAlways)). split; [right; left; reflexivity|]. left. exists FAlways. reflexivity.
  - exfalso. injection E as _ E. repeat (destruct l1 as [|? l1]; [discriminate E|injection E as _ E]). destruct l1; discriminate E.
Qed.
(** the name "libg" is given and overwritten with "libd": libd.so, which "libg" excludes, has its slot changed *)
Definition wrong81 : list fop := [FByName 1; FWrite 1 (of_string "libd"); FOp (OWrap [mkUB f_name 11 1] (Some n_a))].
Example C81_read_ex : name_read buf81 None wrong81 =
    [(OFilter (FName (Some (of_string "libg"))), true); (OFilter (FName (Some (of_string "libd"))), false); (OWrap [mkUB f_name 11 1] (Some n_a), true)] /\
  is_ok (run demo_env (init_state demo_libs demo_mem) (map fst (name_read buf81 None wrong81))) = true.
Proof. split; vm_compute; reflexivity. Qed.

(** So the full claim is false: a library the name given excludes has its slot changed. *)
Theorem C81_refuted : exists e maps mem buf ops m n x st rs s rs', process_ok e maps (name_copied buf ops) /\
  run e (init_state maps mem) (name_copied buf ops) = Ok (st, rs) /\ frun e (finit maps mem buf) ops = Ok (s, rs') /\
  In m maps /\ SpecRun.slot relocs m n x /\ p_mem (s_p st) x = mem x /\ p_mem (s_p (f_core s)) x <> mem x.
Proof.
  exists demo_env, demo_libs, demo_mem, buf81, wrong81, demo_lib, f_name, 65576.
  exists (st_of (run demo_env (init_state demo_libs demo_mem) (name_copied buf81 wrong81))), [RNone; RCode GOTCHA_SUCCESS].
  exists (fst_of (frun demo_env (finit demo_libs demo_mem buf81) wrong81)), [RNone; RCode GOTCHA_SUCCESS].
  assert (F : forall o l, (match o with Ok _ => true | Fault _ => false end) = true -> fres_of o = l -> o = Ok (fst_of o, l)) by (intros [[r k]|] l H <-; [reflexivity|discriminate H]).
  assert (C : forall o l, is_ok o = true -> rs_of o = l -> o = Ok (st_of o, l)) by (intros o l H <-; apply run_of, H).
  split; [process|]. split; [apply C; vm_compute; reflexivity|]. split; [apply F; vm_compute; reflexivity|]. split; [left; reflexivity|].
  split; [exists 40; split; [vm_compute; auto|reflexivity]|]. split; [vm_compute; reflexivity|vm_compute; discriminate].
Qed.
Print Assumptions C81_refuted.
