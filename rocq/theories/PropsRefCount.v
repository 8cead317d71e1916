(** Properties C73: dlsym and the reference counts of libraries. *)
From Verif Require Import Base ListFacts HashModel ElfModel SpecElf ToolModel CoreModel SpecCore SpecRun PropsElf Demo PropsCoreEx RefCount.
From Coq Require String.
Import String.StringSyntax.
Open Scope string_scope.
Open Scope list_scope.
Open Scope Z_scope.

(** C73: as far as the dynamic linker's answers do not depend on its state, the call is that of the other theorems about dlsym. *)
Theorem C73_same_answers {L} e (ld : loader L) caller st l handle name s o :
  (forall l h n, snd (ld_dlsym ld l h n) = s h n) -> (forall l n, snd (ld_dlopen ld l n) = o n) ->
  (do ' (r, _) <- dlsym_in e ld caller st l handle name; Ok r) = dlsym_wrapper e (mkDW s o caller) st handle name.
Proof. apply same_answers. Qed.
Print Assumptions C73_same_answers.

(** C73: with a handle other than RTLD_NEXT the linker sees one call of the original dlsym, with the caller's arguments, and nothing else.
    Partial: see C73_pinned_law for RTLD_NEXT. *)
Theorem C73_other_handles_partial {L} e (ld : loader L) caller st l handle name r l' : handle <> 18446744073709551615 ->
  dlsym_in e ld caller st l handle name = Ok (r, l') -> l' = fst (ld_dlsym ld l handle name).
Proof. apply other_handle. Qed.
Print Assumptions C73_other_handles_partial.

(** C73: dlsym(RTLD_NEXT, n) for a function that is not wrapped: a dlopen of the library that has it, and no dlclose. *)
Theorem C73_next_calls {L} e maps mem ops st rs (ld : loader L) w l n m after lib :
  process_ok e maps ops -> fresh e ops -> existsb is_api ops = true -> run e (init_state maps mem) ops = Ok (st, rs) ->
  ~ wrapped e ops n -> caller_in e st w m after -> find (fun x => match exports e x n with Some _ => true | None => false end) after = Some lib ->
  dlsym_in e ld (dw_caller w) st l 18446744073709551615 n =
    (let l1 := fst (ld_dlsym ld l 18446744073709551615 n) in
     let (l2, h) := ld_dlopen ld l1 (lm_name lib) in
     let (l3, s) := ld_dlsym ld l2 h n in
     Ok (DReturn s, l3)).
Proof. exact (next_calls e maps mem ops st rs ld w l n m after lib). Qed.
Print Assumptions C73_next_calls.

(** C73: with reference counts: every such call adds one to the count of the library that has the function.  The program never
    gave these references back, so that many dlclose calls of its own do not unload the library. *)
Theorem C73_pinned_law e maps mem ops st rs w answer m after lib pre rest names l :
  process_ok e maps ops -> fresh e ops -> existsb is_api ops = true -> run e (init_state maps mem) ops = Ok (st, rs) ->
  caller_in e st w m after -> p_maps (s_p st) = pre ++ lib :: rest -> (forall x, In x pre -> lm_name x <> lm_name lib) ->
  (forall n, In n names -> ~ wrapped e ops n /\ find (fun x => match exports e x n with Some _ => true | None => false end) after = Some lib) ->
  exists l', dlsyms_in e (counting (p_maps (s_p st)) answer) (dw_caller w) st l 18446744073709551615 names = Ok l' /\
    l' (lm_ptr lib) = l (lm_ptr lib) + Z.of_nat (length names) /\ forall p, p <> lm_ptr lib -> l' p = l p.
Proof. intros P F A E C EM HN H. exact (pinned e maps mem ops st rs w answer m after lib pre rest P F A E C EM HN names l H). Qed.
Print Assumptions C73_pinned_law.

(** *** the process of the examples: libd.so calls dlsym(RTLD_NEXT, "g"), which libg.so has *)
Definition counts0 : Z -> Z := fun _ => 1.
Example C73_ex : process_ok demo_env demo_libs hist_dl /\ fresh demo_env hist_dl /\ existsb is_api hist_dl = true /\
  caller_in demo_env (st_of (demo_run hist_dl)) demo_world demo_lib [g_lib] /\
  p_maps (s_p (st_of (demo_run hist_dl))) = [demo_lib] ++ [g_lib] /\ (forall x, In x [demo_lib] -> lm_name x <> lm_name g_lib) /\
  (forall n, In n [g_name; g_name; g_name] -> ~ wrapped demo_env hist_dl n /\ find (fun x => match exports demo_env x n with Some _ => true | None => false end) [g_lib] = Some g_lib).
Proof.
  destruct hist_dl_ok as (A & B & C & _ & D & _). split; [exact A|]. split; [exact B|]. split; [exact C|]. split; [exact hist_dl_caller|].
  split; [vm_compute; reflexivity|]. split; [intros x [<-|[]]; discriminate|].
  intros n Hn. assert (n = g_name) as -> by (destruct Hn as [<-|[<-|[<-|[]]]]; reflexivity). split; [exact D|vm_compute; reflexivity].
Qed.

(** C73, refuted: the count of libg.so is 1, after three lookups it is 4. *)
Theorem C73_counts_refuted : exists e maps mem ops st rs answer caller names l l' lib,
  process_ok e maps ops /\ fresh e ops /\ run e (init_state maps mem) ops = Ok (st, rs) /\ In lib (p_maps (s_p st)) /\
  dlsyms_in e (counting (p_maps (s_p st)) answer) caller st l 18446744073709551615 names = Ok l' /\ l (lm_ptr lib) = 1 /\ l' (lm_ptr lib) = 4.
Proof.
  destruct C73_ex as (A & B & C & D & EM & HN & H).
  assert (E : run demo_env (init_state demo_libs demo_mem) hist_dl = Ok (st_of (demo_run hist_dl), rs_of (demo_run hist_dl))) by (refine (run_of (demo_run hist_dl) _); vm_compute; reflexivity).
  destruct (C73_pinned_law demo_env demo_libs demo_mem hist_dl _ _ demo_world (dw_dlsym demo_world) demo_lib [g_lib] g_lib [demo_lib] [] [g_name; g_name; g_name] counts0 A B C E D EM HN H) as (l' & E' & B1 & _).
  exists demo_env, demo_libs, demo_mem, hist_dl, (st_of (demo_run hist_dl)), (rs_of (demo_run hist_dl)), (dw_dlsym demo_world), (dw_caller demo_world), [g_name; g_name; g_name], counts0, l', g_lib.
  split; [exact A|]. split; [exact B|]. split; [exact E|]. split; [rewrite EM; right; left; reflexivity|]. split; [exact E'|]. split; [reflexivity|]. rewrite B1. reflexivity.
Qed.
Print Assumptions C73_counts_refuted.
