(** Where wrappers and handle variables are (C86). *)
From Verif Require Import Base ListFacts HashModel HashProofs SpecHash ElfModel SpecElf ElfProofs ToolModel CoreModel SpecCore SpecRun SpecSync SpecMove ToolsProofs MoveProofs
  PropsElf Demo PropsCoreEx.
Open Scope list_scope.
Open Scope Z_scope.

(** C86: Put the wrappers of a process, those of GOTCHA included, at other addresses and use other handle variables, different ones staying
    different.  Then every history runs in the same way: it faults in the same way if it does, all calls return the same, GOTCHA
    makes the same mprotect calls and stores into the same slots in the same order, and memory, wrappees and outermost
    wrappers are the moved ones. *)
Theorem C86_moved : forall e maps mem ops w h, moving e (seen maps ops) w h ->
  match run e (init_state maps mem) ops, run (move_env w h e) (init_state maps (fun x => w (mem x))) (map (move_op w h) ops) with
  | Ok (st, rs), Ok (st', rs') => rs' = rs /\ p_maps (s_p st') = p_maps (s_p st) /\
    (forall x, p_mem (s_p st') x = w (p_mem (s_p st) x)) /\ p_log (s_p st') = map (move_event w) (p_log (s_p st)) /\
    (forall n, match outermost st n, outermost st' n with Ok o, Ok o' => o' = option_map w o | Fault k, Fault k' => k = k' | _, _ => False end) /\
    (forall x, match gotcha_get_wrappee st x, gotcha_get_wrappee st' (h x) with Ok p, Ok p' => p' = move_ptr w p | Fault k, Fault k' => k = k' | _, _ => False end)
  | Fault k, Fault k' => k = k'
  | _, _ => False
  end.
Proof.
  intros e maps mem ops w h M.
  assert (X : orel (MSx (seen maps ops) w h) (run e (init_state maps mem) ops) (run (move_env w h e) (init_state maps (fun x => w (mem x))) (map (move_op w h) ops))).
  { apply x_run; [exact M|apply x_start; intros m Hm; apply in_or_app; auto|intros m Hm; apply in_or_app; auto]. }
  destruct (run e _ ops) as [[st rs]|], (run (move_env w h e) _ _) as [[st' rs']|]; cbn [orel] in X; try exact X. destruct X as [S E]. cbn [fst snd] in *. split; [exact E|].
  destruct (m_p _ _ _ _ _ S) as [P1 P2 P3 P4 P5]. split; [exact P1|]. split; [exact P2|]. split; [exact P3|]. split.
  - intros n. exact (x_outermost (seen maps ops) w h st st' n S).
  - intros x. exact (x_wrappee_of (seen maps ops) w h st st' x S).
Qed.
Print Assumptions C86_moved.

(** ... and so do GOTCHA's dlsym and its replacements of main and __libc_start_main, if what the original dlsym returns has not been moved. *)
Theorem C86_dlsym : forall e maps mem ops w h st rs st' rs' d, moving e (seen maps ops) w h -> run e (init_state maps mem) ops = Ok (st, rs) ->
  run (move_env w h e) (init_state maps (fun x => w (mem x))) (map (move_op w h) ops) = Ok (st', rs') ->
  w 0 = 0 -> (forall k n, w (dw_dlsym d k n) = dw_dlsym d k n) ->
  (forall k n, match dlsym_wrapper e d st k n, dlsym_wrapper (move_env w h e) d st' k n with
    | Ok (DReturn a), Ok (DReturn a') => a' = w a | Ok DExit, Ok DExit => True | Fault k, Fault k' => k = k' | _, _ => False end) /\
  match internal_main_target e st, internal_main_target (move_env w h e) st' with Ok p, Ok p' => p' = move_ptr w p | Fault k, Fault k' => k = k' | _, _ => False end /\
  match internal_libc_start_main e st, internal_libc_start_main (move_env w h e) st' with
    | Ok (p, q), Ok (p', q') => p' = move_ptr w p /\ q' = move_ptr w q | Fault k, Fault k' => k = k' | _, _ => False end.
Proof.
  intros e maps mem ops w h st rs st' rs' d M E E' W0 WD.
  assert (X : orel (MSx (seen maps ops) w h) (run e (init_state maps mem) ops) (run (move_env w h e) (init_state maps (fun x => w (mem x))) (map (move_op w h) ops))).
  { apply x_run; [exact M|apply x_start; intros m Hm; apply in_or_app; auto|intros m Hm; apply in_or_app; auto]. }
  rewrite E, E' in X. destruct X as [S _]. cbn [fst snd] in S. split; [|split].
  - intros k n. pose proof (x_dlsym e _ w h M d st st' k n S W0 WD) as X. destruct (dlsym_wrapper e d st k n) as [[a|]|], (dlsym_wrapper (move_env w h e) d st' k n) as [[a'|]|]; cbn in X; auto; try contradiction; try discriminate; try (injection X as ->; reflexivity).
  - exact (x_wrappee_of _ w h st st' (e_h_main e) S).
  - unfold internal_libc_start_main. pose proof (x_wrappee_of _ w h st st' (e_h_libc e) S) as X. pose proof (x_wrappee_of _ w h st st' (e_h_main e) S) as Y.
    change (e_h_libc (move_env w h e)) with (h (e_h_libc e)). change (e_h_main (move_env w h e)) with (h (e_h_main e)).
    destruct (gotcha_get_wrappee st (e_h_libc e)), (gotcha_get_wrappee st' (h (e_h_libc e))); cbn in X; try contradiction; [|exact X]. cbn [bind].
    destruct (gotcha_get_wrappee st (e_h_main e)), (gotcha_get_wrappee st' (h (e_h_main e))); cbn in Y; try contradiction; [split; [exact X|exact Y]|exact Y].
Qed.
Print Assumptions C86_dlsym.

(** wrappers 11 and 21 exchanged, GOTCHA's own ones (801 to 804) and all handle variables moved *)
Definition ex_w (a : Z) : Z := if a =? 11 then 21 else if a =? 21 then 11 else if (100 <=? a) && (a <? 1000) then 1099 - a else a.
Definition ex_h (x : Z) : Z := 3 * x + 7.
Lemma ex_inj a b : ex_w a = ex_w b -> a = b.
Proof. unfold ex_w. repeat match goal with |- context [?x =? ?y] => destruct (Z.eqb_spec x y) | |- context [?x <=? ?y] => destruct (Z.leb_spec x y) | |- context [?x <? ?y] => destruct (Z.ltb_spec x y) end; cbn [andb]; lia. Qed.
Lemma demo_exports n a : exports demo_env demo_lib n = Some a -> exists s, In s demo_syms /\ 0 < st_size s /\ a = (st_value s + 65536) mod 2 ^ 64.
Proof.
  unfold exports. change (e_vdso demo_env demo_lib) with false. destruct (lookup_exported_symbol false n demo_lib) as [r|] eqn:L; [|discriminate]. intros ->.
  destruct (C34_exported_sound _ _ _ L) as (es & i & s & D & N & _ & Z0 & E). exists s. split; [|split; [exact Z0|exact E]].
  assert (D0 : dyn_entries (im_dyn (lm_image demo_lib)) = Some demo_es) by (vm_compute; reflexivity). rewrite D0 in D. injection D as <-.
  assert (D1 : l_syms demo_lib demo_es = demo_syms) by (vm_compute; reflexivity). rewrite D1 in N. apply nth_error_In in N. exact N.
Qed.
Lemma ex_fixed : forallb (fun s => (st_size s <=? 0) || (ex_w ((st_value s + 65536) mod 2 ^ 64) =? (st_value s + 65536) mod 2 ^ 64)) demo_syms = true.
Proof. vm_compute. reflexivity. Qed.
Lemma ex_moving : moving demo_env (seen demo_libs hist1) ex_w ex_h.
Proof.
  constructor; [exact ex_inj|intros a b; unfold ex_h; lia|]. intros m n a Hm H. assert (E : In m [demo_lib]) by exact Hm. destruct E as [<-|[]].
  destruct (demo_exports n a H) as (s & Hs & Z0 & ->). pose proof (proj1 (forallb_forall _ _) ex_fixed s Hs) as W. apply orb_true_iff in W. destruct W as [W|W]; [apply Z.leb_le in W; lia|apply Z.eqb_eq; exact W].
Qed.
Definition hist1_moved : list op := map (move_op ex_w ex_h) hist1.
Notation moved_run := (run (move_env ex_w ex_h demo_env) (init_state demo_libs (fun x => ex_w (demo_mem x))) hist1_moved).
Example C86_ex : hist1_moved <> hist1 /\ is_ok (demo_run hist1) = true /\ is_ok moved_run = true /\
  map (fun x => p_mem (s_p (st_of (demo_run hist1))) x) [65576; 65584; 65592] = [21; 21; 12] /\ map (fun x => p_mem (s_p (st_of moved_run)) x) [65576; 65584; 65592] = [11; 11; 12] /\
  gotcha_get_wrappee (st_of (demo_run hist1)) 3 = Ok (Ptr 11) /\ gotcha_get_wrappee (st_of moved_run) 16 = Ok (Ptr 21) /\
  gotcha_get_wrappee (st_of (demo_run hist1)) 1 = Ok (Ptr 66048) /\ gotcha_get_wrappee (st_of moved_run) 10 = Ok (Ptr 66048).
Proof. split; [discriminate|]. vm_compute. repeat split. Qed.
(** Different ones must stay different: a tool's two wrappers of f moved to one address. *)
Definition hist_two : list op := [OWrap [mkUB f_name 11 1] (Some n_a); OWrap [mkUB f_name 21 3] (Some n_a); OWrap [mkUB f_name 31 5] (Some n_a)].
Definition ex_same (a : Z) : Z := if a =? 31 then 11 else a.
Example C86_different : gotcha_get_wrappee (st_of (demo_run hist_two)) 5 = Ok (Ptr 66048) /\ gotcha_get_wrappee (st_of (demo_run (map (move_op ex_same (fun x => x)) hist_two))) 5 = Ok Uninit.
Proof. split; vm_compute; reflexivity. Qed.
