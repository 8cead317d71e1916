(** Property C71: GOTCHA's messages, in the build with FORCE_NO_LIBC. *)
From Verif Require Import Base ListFacts LibcModel SpecLibc LibcProofs LibcProofs2 LibcProofs3 LibcProofs4 MsgModel SpecMsg MsgProofs PropsLibc.
From Coq Require String.
Import String.StringSyntax.
Open Scope string_scope.
Open Scope list_scope.
Open Scope Z_scope.

(** Every message's format asks for exactly the arguments that are passed, with their types. *)
Theorem C71_types : forall g, In g messages ->
  exists pre, format_kinds (whole_format g) (pre ++ g_args g) /\
  pre = match g_gate g with Bare _ => [] | _ => [KInt; KInt; KStr; KUInt] end.
Proof. intros g H. exists (prefix_kinds (g_gate g)). rewrite whole_full. split; [apply messages_kinds; exact H|reflexivity]. Qed.
Print Assumptions C71_types.

(** With strings that can be read, an enabled message is written in one call, as the C standard's printf would print it.
    Partial: a message above 4096 bytes is not covered (C48_long_refuted). *)
Theorem C71_printed_partial : forall g m level format tid pid file line args buf, In g messages ->
  str_at m format (whole_format g) -> str_at m file (g_file g) -> Forall2 (given m) (g_args g) args -> zlen buf = 4096 ->
  heard level (g_gate g) ->
  exists out, expands m (whole_format g) (whole_args (g_gate g) tid pid file line args) out /\
    (zlen out <= 4096 -> emit m level g format tid pid file line args buf = Ok [out]).
Proof.
  intros g m level format tid pid file line args buf Hg Hf Hn Ha B E. rewrite whole_prefix. rewrite whole_full in *. apply enabled_heard in E.
  destruct (format_kinds_expands m _ _ (messages_kinds g Hg) (prefix_args (g_gate g) tid pid file line ++ args)) as [out X].
  - apply Forall2_app; [apply prefix_given; exact Hn|exact Ha].
  - exists out. split; [exact X|]. intros L. unfold emit. rewrite E, (C48_printf_partial _ _ _ _ _ _ Hf X B L). reflexivity.
Qed.
Print Assumptions C71_printed_partial.
(** A message of any length that an int can count is written in pieces of 4096 bytes; exactly the bytes at the positions
    4096, 8192, ... are replaced by the first one. *)
Theorem C71_any_length_law : forall g m level format tid pid file line args buf, In g messages ->
  str_at m format (whole_format g) -> str_at m file (g_file g) -> Forall2 (given m) (g_args g) args -> zlen buf = 4096 ->
  heard level (g_gate g) ->
  exists out, expands m (whole_format g) (whole_args (g_gate g) tid pid file line args) out /\
    (zlen out <= INT_MAX -> exists calls, emit m level g format tid pid file line args buf = Ok calls /\ pieces (repeats_first out) calls).
Proof.
  intros g m level format tid pid file line args buf Hg Hf Hn Ha B E. rewrite whole_prefix. rewrite whole_full in *. apply enabled_heard in E.
  destruct (format_kinds_expands m _ _ (messages_kinds g Hg) (prefix_args (g_gate g) tid pid file line ++ args)) as [out X].
  - apply Forall2_app; [apply prefix_given; exact Hn|exact Ha].
  - exists out. split; [exact X|]. intros L. destruct (C48_any_length_partial _ _ _ _ _ _ Hf X B L) as (calls & P & Q).
    exists calls. split; [|exact Q]. unfold emit. rewrite E, P. reflexivity.
Qed.
Print Assumptions C71_any_length_law.

(** A message that the level does not enable writes nothing and reads no argument. *)
Theorem C71_gate : forall g m level format tid pid file line args buf, ~ heard level (g_gate g) ->
  emit m level g format tid pid file line args buf = Ok [].
Proof. intros g m level format tid pid file line args buf H. unfold emit. destruct (enabled level (g_gate g)) eqn:E; [|reflexivity]. apply enabled_heard in E. contradiction. Qed.
Print Assumptions C71_gate.

(** Without GOTCHA_DEBUG nothing is written and no argument is read, whatever the arguments are.  The message of debug_init
    has level 0; it stands behind the return of debug_init without GOTCHA_DEBUG (src/gotcha_utils.c:38-40). *)
Theorem C71_silent : forall g m format tid pid file line args buf, In g messages ->
  ~ (g_file g = lit "gotcha_utils.c" /\ g_line g = 45) -> emit m 0 g format tid pid file line args buf = Ok [].
Proof.
  assert (H : forallb (fun g => negb (enabled 0 (g_gate g)) || (if list_eq_dec Z.eq_dec (g_file g) (lit "gotcha_utils.c") then g_line g =? 45 else false)) messages = true)
    by (vm_compute; reflexivity).
  rewrite forallb_forall in H. intros g m format tid pid file line args buf Hg N. specialize (H g Hg). unfold emit.
  destruct (enabled 0 (g_gate g)); [|reflexivity]. cbn [negb orb] in H.
  destruct (list_eq_dec Z.eq_dec (g_file g) (lit "gotcha_utils.c")) as [E|]; [|discriminate H]. destruct N. split; [exact E|lia].
Qed.
Print Assumptions C71_silent.

(** An enabled message with a string argument that cannot be read (NULL) never completes: there is no "(null)". *)
Theorem C71_null_law : forall g m level format tid pid file line k1 k2 a1 a a2 buf, In g messages ->
  str_at m format (whole_format g) -> g_args g = k1 ++ KStr :: k2 -> length a1 = length k1 ->
  (forall b, ld m a <> Ok b) -> heard level (g_gate g) ->
  forall calls, emit m level g format tid pid file line (a1 ++ a :: a2) buf <> Ok calls.
Proof.
  intros g m level format tid pid file line k1 k2 a1 a a2 buf Hg [W Hf] Ek L Ha E calls X. rewrite whole_full in *. apply enabled_heard in E. unfold emit in X. rewrite E in X.
  apply bind_Ok in X. destruct X as ([c n] & X & _). unfold gotcha_int_printf in X.
  revert X. rewrite app_assoc. apply hits_fault with (fmt := full_fmt g); [exact W|exact Hf|].
  apply kinds_hit with (ks := prefix_kinds (g_gate g) ++ g_args g) (k1 := prefix_kinds (g_gate g) ++ k1) (k2 := k2).
  - apply messages_kinds. exact Hg.
  - rewrite Ek, app_assoc. reflexivity.
  - rewrite !app_length, L. destruct (g_gate g); reflexivity.
  - exact Ha.
Qed.
Print Assumptions C71_null_law.

(** *** a message with all prefixes, and the ones that go wrong *)
Definition msg_at (f : String.string) (n : Z) : option msg := find (fun g => (if list_eq_dec Z.eq_dec (g_file g) (lit f) then true else false) && (g_line g =? n)) messages.
Definition dlopen_msg : msg := mkMsg (lit "gotcha_dl.c") 140 (Debug 1) (lit "User called dlopen(%s, 0x%x)" ++ [10]) [KStr; KUInt].
Definition wrap_msg : msg := mkMsg (lit "gotcha.c") 411 (Debug 1) (lit "User called gotcha_wrap for tool %s with %d bindings" ++ [10]) [KStr; KInt].
Definition remap_msg : msg := mkMsg (lit "gotcha.c") 220 (Debug 3) (lit "Remapped call to %s at 0x%lx in %s to wrapper at 0x%p" ++ [10]) [KStr; KULong; KStr; KPtr].
(** address 0 cannot be read; then the format, the file name and the strings *)
Definition msg_mem (g : msg) (l : list cstr) : bytes := None :: image (whole_format g :: g_file g :: l).
Definition file_pos (g : msg) : Z := 2 + zlen (whole_format g).
Definition first_pos (g : msg) : Z := file_pos g + 1 + zlen (g_file g).
Example C71_listed : msg_at "gotcha_dl.c" 140 = Some dlopen_msg /\ msg_at "gotcha.c" 411 = Some wrap_msg /\ msg_at "gotcha.c" 220 = Some remap_msg /\ length messages = 67%nat.
Proof. vm_compute. auto. Qed.
Lemma msg_in f n g : msg_at f n = Some g -> In g messages.
Proof. intros H. apply find_some in H. apply H. Qed.
(** dlopen("a.so", 0x102) at level 1, thread 7 of process 5 *)
Example C71_ex : exists m format file a, In dlopen_msg messages /\ str_at m format (whole_format dlopen_msg) /\ str_at m file (g_file dlopen_msg) /\
  Forall2 (given m) (g_args dlopen_msg) [a; 258] /\ heard 1 (g_gate dlopen_msg) /\
  emit m 1 dlopen_msg format 7 5 file 140 [a; 258] (repeat 0 (64 * 64)) = Ok [lit "[7/5][gotcha_dl.c:140] - User called dlopen(a.so, 0x102)" ++ [10]].
Proof.
  exists (msg_mem dlopen_msg [lit "a.so"]), 1, (file_pos dlopen_msg), (first_pos dlopen_msg). split; [apply (msg_in "gotcha_dl.c" 140); vm_compute; reflexivity|]. split; [str|]. split; [str|].
  split; [repeat constructor; exists (lit "a.so"); str|]. split; [cbn; lia|]. vm_compute. reflexivity.
Qed.

(** dlopen(NULL, flags), which opens the main program, stops the process as soon as GOTCHA_DEBUG is set, whatever its level:
    the wrapper prints the file name before it calls dlopen (src/gotcha_dl.c:140-142). *)
Theorem C71_dlopen_null_refuted : exists m format file, str_at m format (whole_format dlopen_msg) /\ str_at m file (g_file dlopen_msg) /\ In dlopen_msg messages /\
  forall level tid pid line flags buf calls, 1 <= level -> emit m level dlopen_msg format tid pid file line [0; flags] buf <> Ok calls.
Proof.
  exists (msg_mem dlopen_msg []), 1, (file_pos dlopen_msg). split; [str|]. split; [str|]. assert (I : In dlopen_msg messages) by (apply (msg_in "gotcha_dl.c" 140); vm_compute; reflexivity).
  split; [exact I|]. intros level tid pid line flags buf calls L.
  apply (C71_null_law dlopen_msg _ level 1 tid pid _ line [] [KUInt] [] 0 [flags] buf I); [str|reflexivity|reflexivity|intros b; vm_compute; discriminate|exact L].
Qed.
Print Assumptions C71_dlopen_null_refuted.
(** gotcha_wrap with tool_name NULL, which the code allows (src/gotcha.c:426), likewise (:411-412) *)
Theorem C71_tool_null_refuted : exists m format file, str_at m format (whole_format wrap_msg) /\ str_at m file (g_file wrap_msg) /\ In wrap_msg messages /\
  forall level tid pid line n buf calls, 1 <= level -> emit m level wrap_msg format tid pid file line [0; n] buf <> Ok calls.
Proof.
  exists (msg_mem wrap_msg []), 1, (file_pos wrap_msg). split; [str|]. split; [str|]. assert (I : In wrap_msg messages) by (apply (msg_in "gotcha.c" 411); vm_compute; reflexivity).
  split; [exact I|]. intros level tid pid line n buf calls L.
  apply (C71_null_law wrap_msg _ level 1 tid pid _ line [] [KInt] [] 0 [n] buf I); [str|reflexivity|reflexivity|intros b; vm_compute; discriminate|exact L].
Qed.
Print Assumptions C71_tool_null_refuted.
(** "0x%p" prints the prefix 0x twice (src/gotcha.c:220) *)
Theorem C71_prefix_twice_refuted : exists m format file name lib, In remap_msg messages /\ str_at m format (whole_format remap_msg) /\
  emit m 3 remap_msg format 7 5 file 220 [name; 4096; lib; 8192] (repeat 0 (64 * 64)) =
  Ok [lit "[7/5][gotcha.c:220] - Remapped call to puts at 0x1000 in a.so to wrapper at 0x0x2000" ++ [10]].
Proof.
  exists (msg_mem remap_msg [lit "puts"; lit "a.so"]), 1, (file_pos remap_msg), (first_pos remap_msg), (first_pos remap_msg + 5).
  split; [apply (msg_in "gotcha.c" 220); vm_compute; reflexivity|]. split; [str|]. vm_compute. reflexivity.
Qed.
Print Assumptions C71_prefix_twice_refuted.
