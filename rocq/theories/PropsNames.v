(** C68: the names that GOTCHA itself gives meaning to, and the numbers it shares with others, spelt out here
    and not taken from the model: dlopen, dlsym, main, __libc_start_main, the tool "gotcha", the name of a
    tool that gives none, the values of error_t and the tags of elf.h. *)
From Verif Require Import Base ListFacts HashModel HashProofs SpecHash HashTrace ElfModel ToolModel AuxvModel CoreModel SpecCore SpecRun CoreMaps CoreRel CoreStep CoreMain CoreSpec CoreFacts CoreHist CoreApi PropsElf Demo PropsCore PropsCoreEx.
From Coq Require Import Permutation.
From Coq Require String.
Import String.StringSyntax.
Open Scope string_scope.
Open Scope list_scope.
Open Scope Z_scope.

Lemma call_installs_in e t ubs : forall m x, In x (call_installs e m t ubs) ->
  (exists u, In u ubs /\ x = bound t u) \/ ((exists u, In u ubs /\ ub_name u = n_main) /\ In x (map (bound n_gotcha) (libc_binds e ++ main_binds e))).
Proof.
  induction ubs as [|u r IH]; intros m x H; [destruct H|]. cbn [call_installs] in H. apply in_app_or in H. destruct H as [H|[H|H]].
  - right. destruct (cstr_eqb (ub_name u) n_main) eqn:E; [|destruct H]. destruct m; [destruct H|]. cbn [andb negb] in H. split; [|exact H].
    exists u. split; [left; reflexivity|]. apply cstr_eqb_ok, E.
  - left. exists u. split; [left; reflexivity|auto].
  - destruct (IH _ _ H) as [(v & V & ->)|[(v & V & W) I]]; [left; exists v; split; [right; exact V|reflexivity]|right; split; [exists v; split; [right; exact V|exact W]|exact I]].
Qed.
Lemma installs_in e ops : forall i m x, In x (installs e i m ops) ->
  (existsb is_api ops = true /\ In x (map (bound n_gotcha) (dl_binds e))) \/
  (exists ubs tool, In (OWrap ubs tool) ops /\ ((exists u, In u ubs /\ x = bound (tool_name tool) u) \/
    ((exists u, In u ubs /\ ub_name u = n_main) /\ In x (map (bound n_gotcha) (libc_binds e ++ main_binds e))))).
Proof.
  induction ops as [|o r IH]; intros i m x H; [destruct H|].
  assert (K : (existsb is_api r = true /\ In x (map (bound n_gotcha) (dl_binds e))) \/
    (exists ubs tool, In (OWrap ubs tool) r /\ ((exists u, In u ubs /\ x = bound (tool_name tool) u) \/
      ((exists u, In u ubs /\ ub_name u = n_main) /\ In x (map (bound n_gotcha) (libc_binds e ++ main_binds e))))) ->
    (existsb is_api (o :: r) = true /\ In x (map (bound n_gotcha) (dl_binds e))) \/
    (exists ubs tool, In (OWrap ubs tool) (o :: r) /\ ((exists u, In u ubs /\ x = bound (tool_name tool) u) \/
      ((exists u, In u ubs /\ ub_name u = n_main) /\ In x (map (bound n_gotcha) (libc_binds e ++ main_binds e)))))).
  { intros [[A B]|(ubs & tool & A & B)]; [left; split; [cbn; rewrite A; apply orb_true_r|exact B]|right; exists ubs, tool; split; [right; exact A|exact B]]. }
  destruct o as [ubs tool|t v|t|f|libs mem'| |keep mem']; cbn [installs] in H; try (apply K, (IH _ _ _ H)).
  - apply in_app_or in H. destruct H as [H|H]; [left; split; [reflexivity|destruct i; [destruct H|exact H]]|].
    apply in_app_or in H. destruct H as [H|H]; [|apply K, (IH _ _ _ H)].
    right. exists ubs, tool. split; [left; reflexivity|]. apply (call_installs_in _ _ _ _ _ H).
  - apply in_app_or in H. destruct H as [H|H]; [left; split; [reflexivity|destruct i; [destruct H|exact H]]|apply K, (IH _ _ _ H)].
  - apply in_app_or in H. destruct H as [H|H]; [left; split; [reflexivity|destruct i; [destruct H|exact H]]|apply K, (IH _ _ _ H)].
Qed.
Lemma in_call_main e t ubs : (exists u, In u ubs /\ ub_name u = n_main) -> forall x, In x (map (bound n_gotcha) (libc_binds e ++ main_binds e)) -> In x (call_installs e false t ubs).
Proof.
  intros (u & U & N) x H. induction ubs as [|v r IH]; [destruct U|]. cbn [call_installs]. apply in_or_app.
  destruct (cstr_eqb (ub_name v) n_main) eqn:E; cbn [andb negb orb]; [left; exact H|]. destruct U as [->|U]; [rewrite N, cstr_eqb_refl in E; discriminate|]. right. right. auto.
Qed.
Lemma in_main e ops : forall i ubs tool u, In (OWrap ubs tool) ops -> In u ubs -> ub_name u = n_main ->
  forall x, In x (map (bound n_gotcha) (libc_binds e ++ main_binds e)) -> In x (installs e i false ops).
Proof.
  induction ops as [|o r IH]; intros i ubs tool u Ho Hu Hn x Hx; [destruct Ho|]. destruct Ho as [->|Ho].
  - cbn [installs]. apply in_or_app. right. apply in_or_app. left. apply in_call_main; eauto.
  - destruct o as [ubs' tool'|t v|t|f|libs mem'| |keep mem']; cbn [installs]; try (apply (IH _ ubs tool u); auto).
    + apply in_or_app. right. apply in_or_app. destruct (existsb (fun u => cstr_eqb (ub_name u) n_main) ubs') eqn:E.
      * left. apply existsb_exists in E. destruct E as (w & W1 & W2). apply in_call_main; auto. exists w. split; auto. apply cstr_eqb_ok, W2.
      * right. cbn [orb]. apply (IH _ ubs tool u); auto.
    + apply in_or_app. right. apply (IH _ ubs tool u); auto.
    + apply in_or_app. right. apply (IH _ ubs tool u); auto.
Qed.
Lemma in_own e ops x : existsb is_api ops = true -> In x (map (bound n_gotcha) (dl_binds e)) -> In x (installs e false false ops).
Proof.
  intros H Hx. generalize false at 2. induction ops as [|o r IH]; intros m; [discriminate|].
  destruct o; cbn [existsb is_api orb] in H; cbn [installs]; try (apply IH, H); apply in_or_app; left; exact Hx.
Qed.
Lemma in_sel n x l : In x (sel n l) <-> In (n, x) l.
Proof.
  unfold sel. rewrite in_map_iff. split.
  - intros ([a b] & <- & H). apply filter_In in H. destruct H as [H E]. apply cstr_eqb_ok in E. cbn in *. subst. exact H.
  - intros H. exists (n, x). split; [reflexivity|]. apply filter_In. split; [exact H|]. cbn. apply cstr_eqb_refl.
Qed.

(** Every wrapper in a chain is one that the history asked for, under the name it asked for and with its tool's
    name, or one of GOTCHA's own four; GOTCHA's own ones of dlopen and dlsym are there once any function of the
    API has been called, those of __libc_start_main and main once somebody wraps main. *)
Theorem C68_names : forall e maps mem ops, process_ok e maps ops -> fresh e ops ->
  exists st rs chain, run e (init_state maps mem) ops = Ok (st, rs) /\
  (forall n, outermost st n = Ok (option_map en_wrapper (hd_error (chain n))) /\ wired st (chain n) (original e maps ops n)) /\
  let own_dlopen := mkE (of_string "gotcha") (e_w_dlopen e) (e_h_dlopen e) in
  let own_dlsym := mkE (of_string "gotcha") (e_w_dlsym e) (e_h_dlsym e) in
  let own_libc := mkE (of_string "gotcha") (e_w_libc e) (e_h_libc e) in
  let own_main := mkE (of_string "gotcha") (e_w_main e) (e_h_main e) in
  let wraps_main := exists ubs tool u, In (OWrap ubs tool) ops /\ In u ubs /\ ub_name u = of_string "main" in
  (existsb is_api ops = true -> In own_dlopen (chain (of_string "dlopen")) /\ In own_dlsym (chain (of_string "dlsym"))) /\
  (wraps_main -> In own_libc (chain (of_string "__libc_start_main")) /\ In own_main (chain (of_string "main"))) /\
  (forall ubs tool u, In (OWrap ubs tool) ops -> In u ubs ->
    In (mkE (match tool with Some t => t | None => of_string "[UNSPECIFIED]" end) (ub_wrapper u) (ub_handle u)) (chain (ub_name u))) /\
  (forall n x, In x (chain n) ->
    (exists ubs tool u, In (OWrap ubs tool) ops /\ In u ubs /\ ub_name u = n /\ x = mkE (match tool with Some t => t | None => of_string "[UNSPECIFIED]" end) (ub_wrapper u) (ub_handle u)) \/
    existsb is_api ops = true /\ (n = of_string "dlopen" /\ x = own_dlopen \/ n = of_string "dlsym" /\ x = own_dlsym) \/
    wraps_main /\ (n = of_string "__libc_start_main" /\ x = own_libc \/ n = of_string "main" /\ x = own_main)).
Proof.
  intros e maps mem ops P F. destruct (C01_stack_order e maps mem ops P F) as (st & rs & E & HS).
  exists st, rs, (stack e maps ops). split; [exact E|]. split; [intros n; destruct (HS n) as (A & B & _); auto|].
  assert (IN : forall n x, In x (stack e maps ops n) <-> In (n, x) (installs e false false ops)).
  { intros n x. destruct (HS n) as (_ & _ & Pm & _). rewrite <- in_sel. fold (installed e ops n). split; intros I; [apply (Permutation_in x Pm I)|apply (Permutation_in x (Permutation_sym Pm) I)]. }
  clear HS. intros own_dlopen own_dlsym own_libc own_main wraps_main. split; [|split; [|split]].
  - intros H. split; apply IN; apply in_own; auto; [left; reflexivity|right; left; reflexivity].
  - intros (ubs & tool & u & Ho & Hu & Hn). split; apply IN; apply (in_main e ops false ubs tool u Ho Hu Hn); [left; reflexivity|right; left; reflexivity].
  - intros ubs tool u Ho Hu. apply IN. change (In (bound (tool_name tool) u) (installs e false false ops)).
    generalize false at 2. generalize false. clear - Ho Hu. induction ops as [|o r IH]; intros i m; [destruct Ho|]. destruct Ho as [->|Ho].
    + cbn [installs]. apply in_or_app. right. apply in_or_app. left. clear IH. revert m. induction ubs as [|v q IH]; intros m; [destruct Hu|]. cbn [call_installs]. apply in_or_app. right.
      destruct Hu as [->|Hu]; [left; reflexivity|right; apply IH, Hu].
    + destruct o; cbn [installs]; try (apply IH; exact Ho); apply in_or_app; right; try (apply IH; exact Ho). apply in_or_app. right. apply IH, Ho.
  - intros n x I. apply IN in I. apply installs_in in I. destruct I as [[A I]|(ubs & tool & Ho & [(u & Hu & I)|[(u & Hu & Hn) I]])].
    + right. left. split; [exact A|]. destruct I as [I|[I|[]]]; injection I as <- <-; auto.
    + left. exists ubs, tool, u. injection I as -> ->. auto.
    + right. right. split; [exists ubs, tool, u; auto|]. destruct I as [I|[I|[]]]; injection I as <- <-; auto.
Qed.
Print Assumptions C68_names.

(** A call without a tool name does what one with the name "[UNSPECIFIED]" does, in every state. *)
Theorem C68_unnamed_tool : forall e st ubs, step e st (OWrap ubs None) = step e st (OWrap ubs (Some (of_string "[UNSPECIFIED]"))).
Proof. intros e st ubs. destruct ubs; reflexivity. Qed.
Print Assumptions C68_unnamed_tool.

(** Before its priority is set, the priority of GOTCHA's own tool can be asked by its name; it is the default. *)
Theorem C68_own_tool : forall e maps mem ops, process_ok e maps (ops ++ [OGetPriority (of_string "gotcha")]) ->
  (forall v, ~ In (OSetPriority (of_string "gotcha") v) ops) ->
  exists st rs, run e (init_state maps mem) (ops ++ [OGetPriority (of_string "gotcha")]) = Ok (st, rs ++ [RPrio 0 (Some (-1))]).
Proof.
  intros e maps mem ops P H. destruct (run_any e maps mem _ P) as (st & E & _). eexists st, _. rewrite E. f_equal. f_equal. rewrite get_result.
  assert (U : used (ops ++ [OGetPriority (of_string "gotcha")]) (of_string "gotcha") = true) by (unfold used; rewrite existsb_app; apply orb_true_r).
  rewrite U. f_equal. f_equal. f_equal. f_equal. apply PropsCore.last_set_none. exact H.
Qed.
Print Assumptions C68_own_tool.

(** the numbers of include/gotcha/gotcha_types.h:47-53 and of elf.h *)
Theorem C68_numbers :
  [GOTCHA_SUCCESS; GOTCHA_FUNCTION_NOT_FOUND; GOTCHA_INTERNAL; GOTCHA_INVALID_TOOL] = [0; 1; 2; 3] /\ UNSET_PRIORITY = -1 /\
  [DT_NULL; DT_PLTRELSZ; DT_PLTGOT; DT_HASH; DT_STRTAB; DT_SYMTAB; DT_RELA; DT_RELASZ; DT_RELAENT] = [0; 2; 3; 4; 5; 6; 7; 8; 9] /\
  [DT_REL; DT_RELSZ; DT_RELENT; DT_PLTREL; DT_JMPREL; DT_GNU_HASH; DT_VERSYM] = [17; 18; 19; 20; 23; 16 ^ 7 * 7 - 267; 16 ^ 7 * 7 - 16] /\
  [AT_NULL; AT_PAGESZ; AT_SYSINFO_EHDR] = [0; 6; 33] /\
  [PT_LOAD; ElfModel.PT_DYNAMIC; AuxvModel.PT_DYNAMIC; PT_GNU_RELRO] = [1; 2; 2; 1685382482].
Proof. vm_compute. repeat split. Qed.
Print Assumptions C68_numbers.

(** *** the hypotheses are met *)
(** somebody wraps f and main without giving a tool name *)
Definition hist68 : list op := [OWrap [mkUB f_name 11 1; mkUB (of_string "main") 31 5] None].
Example C68_ex : process_ok demo_env demo_libs hist68 /\ fresh demo_env hist68 /\ existsb is_api hist68 = true /\
  (exists ubs tool u, In (OWrap ubs tool) hist68 /\ In u ubs /\ ub_name u = of_string "main") /\
  stack demo_env demo_libs hist68 (of_string "main") = [mkE (of_string "gotcha") 804 904; mkE (of_string "[UNSPECIFIED]") 31 5] /\
  stack demo_env demo_libs hist68 f_name = [mkE (of_string "[UNSPECIFIED]") 11 1].
Proof.
  split; [process|]. split; [apply freshb_ok; vm_compute; reflexivity|]. split; [reflexivity|]. split.
  - exists [mkUB f_name 11 1; mkUB (of_string "main") 31 5], None, (mkUB (of_string "main") 31 5). split; [left; reflexivity|]. split; [right; left; reflexivity|reflexivity].
  - vm_compute. auto.
Qed.
Example C68_own_tool_ex : process_ok demo_env demo_libs (hist68 ++ [OGetPriority (of_string "gotcha")]) /\ (forall v, ~ In (OSetPriority (of_string "gotcha") v) hist68) /\
  rs_of (demo_run (hist68 ++ [OGetPriority (of_string "gotcha")])) = [RCode 0; RPrio 0 (Some (-1))].
Proof. split; [process|]. split; [intros v [H|[]]; discriminate|]. vm_compute. reflexivity. Qed.
