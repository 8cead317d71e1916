(** The tests of the repository that drive GOTCHA as a whole, replayed on the model: the model gives what the tests
    (/repo/test) demand of the program.  They check the model, not the code; no property rests on them. *)
From Verif Require Import Base HashModel ElfModel ToolModel CoreModel SpecCore Demo.
From Coq Require String.
Import String.StringSyntax.
Open Scope string_scope.
Open Scope list_scope.
Open Scope Z_scope.

(** a library with the functions [exports] (the k-th at offset 256 * k) and slots for calls of [imports] (the k-th at offset 4096 + 8 * k);
    a version index for every symbol if [vers] is not empty *)
Definition mk_lib (ptr : Z) (name : cstr) (addr : Z) (exports imports : list cstr) (vers : list Z) : lmap :=
  let n := length exports in let names := exports ++ imports in let total := Z.of_nat (length names) in
  let numbered (l : list cstr) (from : nat) := combine (seq from (length l)) l in
  mkLmap ptr (Some name) addr 1
    (mkImage ([(DT_HASH, 300); (DT_SYMTAB, 100); (DT_STRTAB, 1000); (DT_PLTREL, DT_RELA); (DT_JMPREL, 200); (DT_PLTRELSZ, 24 * Z.of_nat (length imports)); (DT_PLTGOT, addr + 4096)]
               ++ (if vers then [] else [(DT_VERSYM, 400)]) ++ [(DT_NULL, 0)])
      (fun _ => [])
      (fun _ => map (fun x => (4096 + 8 * Z.of_nat (fst x), Z.shiftl (Z.of_nat (n + fst x + 1)) 32)) (numbered imports 0%nat))
      (fun _ => mkSym 0 0 0 0 0 :: map (fun x => mkSym (Z.of_nat (fst x)) (256 * Z.of_nat (fst x)) 8 2 9) (numbered exports 1%nat)
                ++ map (fun x => mkSym (Z.of_nat (fst x)) 0 0 2 0) (numbered imports (S n)))
      (fun a => nth (Z.to_nat (a - 1001)) names [])
      (fun _ => 0 :: vers)
      (fun _ => [1; total + 1; if total =? 0 then 0 else 1; 0] ++ map Z.of_nat (seq 2 (length names - 1)) ++ [0])).
Definition func (l : lmap) (k : Z) : Z := lm_addr l + 256 * k.
Definition slot_of (l : lmap) (k : Z) : Z := lm_addr l + 4096 + 8 * k.

Definition s_dlopen := of_string "dlopen".
Definition libc := mk_lib 30 (of_string "libc.so.6") 3000000 [of_string "__libc_start_main"; s_dlopen; of_string "dlsym"] [] [].
(** the program's memory at the start: every slot holds the address of the function, 0 if there is none *)
Definition filled (ls : list (Z * Z)) : Z -> Z := fun x => match find (fun p => fst p =? x) ls with Some p => snd p | None => 0 end.
Definition go (libs : list lmap) (mem : Z -> Z) (ops : list op) := run demo_env (init_state libs mem) ops.

(** the wrappers (with their handles [ws]) that a call arriving at [v] passes, and where it ends *)
Fixpoint path (fuel : nat) (st : state) (ws : list (Z * Z)) (v : Z) : list Z :=
  match fuel with
  | O => []
  | S f => match find (fun p => fst p =? v) ws with
           | None => [v]
           | Some p => match gotcha_get_wrappee st (snd p) with Ok (Ptr a) => v :: path f st ws a | _ => [v; -1] end
           end
  end.
Definition call (r : outcome (state * list res)) (ws : list (Z * Z)) (x : Z) : list Z := path 10 (st_of r) ws (p_mem (s_p (st_of r)) x).

(** test/stack/app.c: retX(10) is 13, through both tools *)
Definition s_retX := of_string "retX".
Definition app1 := mk_lib 10 [] 1000000 [of_string "main"] [of_string "__libc_start_main"; s_retX; s_dlopen; of_string "dlsym"] [].
Definition lib1 := mk_lib 20 (of_string "liblib1.so") 2000000 [s_retX] [] [].
Definition start1 := filled [(slot_of app1 0, func libc 1); (slot_of app1 1, func lib1 1); (slot_of app1 2, func libc 2); (slot_of app1 3, func libc 3)].
Definition tool (k : nat) : cstr := nth k [of_string "tool1"; of_string "tool2"; of_string "tool3"] [].
Definition init_tool (k : nat) : op := OWrap [mkUB s_retX (501 + Z.of_nat k) (601 + Z.of_nat k)] (Some (tool k)).
Definition ws3 : list (Z * Z) := [(501, 601); (502, 602); (503, 603)].
Example test_stack : let r := go [app1; lib1; libc] start1 [init_tool 0; init_tool 1] in
  rs_of r = [RCode 0; RCode 0] /\ call r ws3 (slot_of app1 1) = [501; 502; func lib1 1].
Proof. vm_compute. auto. Qed.

(** test/priority/app.c with the priorities of CMakeLists.txt: the order of the tools that bubble3 expects (the commented-out cases are not among them) *)
Definition priority_app (p1 p2 p3 : Z) :=
  go [app1; lib1; libc] start1 [OSetPriority (tool 0) p1; OSetPriority (tool 1) p2; OSetPriority (tool 2) p3; init_tool 0; init_tool 1; init_tool 2].
Definition bubble_step (l : list (Z * Z)) : list (Z * Z) :=
  match l with
  | [a; b; c] => let (x, y) := if fst a <=? fst b then (b, a) else (a, b) in let (y, z) := if fst y <=? fst c then (c, y) else (y, c) in [x; y; z]
  | l => l
  end.
Definition expected (p1 p2 p3 : Z) : list Z := map snd (bubble_step (bubble_step (bubble_step [(p1, 501); (p2, 502); (p3, 503)]))) ++ [func lib1 1].
Definition priority_ok (p : Z * Z * Z) : Prop := let '(p1, p2, p3) := p in
  rs_of (priority_app p1 p2 p3) = repeat (RCode 0) 6 /\ call (priority_app p1 p2 p3) ws3 (slot_of app1 1) = expected p1 p2 p3.
Example test_priority : Forall priority_ok [(1, 2, 3); (1, 3, 2); (2, 1, 3); (2, 3, 1); (3, 1, 2); (3, 2, 1); (2, 1, 2)].
Proof. repeat constructor. Qed.
(** Of the two cases commented out in CMakeLists.txt one fails: tool 1 and tool 2 with the same priority (C03). *)
Example test_priority_disabled : priority_ok (1, 2, 2) /\ ~ priority_ok (2, 2, 1).
Proof. split; [repeat constructor|]. intros [_ H]; vm_compute in H; discriminate. Qed.

(** test/dlopen/test_dlopen.c *)
Definition s_four := of_string "return_four". Definition s_five := of_string "return_five". Definition s_six := of_string "return_six".
Definition s_test_five := of_string "test_return_five". Definition s_dummy := of_string "return_dummy".
Definition app2 := mk_lib 10 [] 1000000 [of_string "main"; s_five] [of_string "__libc_start_main"; s_dlopen; of_string "dlsym"] [].
Definition libnum := mk_lib 40 (of_string "libnum.so") 4000000 [s_four; s_test_five] [s_five] [].
Definition libnum2 := mk_lib 50 (of_string "libnum2.so") 5000000 [s_four; s_six] [] [].
Definition start2 := [(slot_of app2 0, func libc 1); (slot_of app2 1, func libc 2); (slot_of app2 2, func libc 3)].
Definition funcs : op := OWrap [mkUB s_four 504 604; mkUB s_five 505 605; mkUB s_six 506 606] (Some (of_string "dlopen_test")).
Definition dl1 := go [app2; libc] (filled start2) [funcs].
(** what the loader leaves: what was there, and the new library's slots bound to the functions *)
Definition mem1 := filled ((slot_of libnum 0, func app2 2) :: (slot_of app2 1, 801) :: (slot_of app2 2, 802) :: start2).
Definition dl2 := go [app2; libc] (filled start2) [funcs; OLoad [libnum] mem1; OFinish].
Definition dl3 := go [app2; libc] (filled start2) [funcs; OLoad [libnum] mem1; OFinish; OLoad [libnum2] (p_mem (s_p (st_of dl2))); OFinish].
(** glibc's answers: handles 7 and 8 are the two libraries, opened without RTLD_GLOBAL; 0 is RTLD_DEFAULT; RTLD_NEXT of the program finds nothing in libc *)
Definition glibc : dlworld := mkDW
  (fun h n => if h =? 7 then (if cstr_eqb n s_four then func libnum 1 else if cstr_eqb n s_test_five then func libnum 2 else 0)
              else if h =? 8 then (if cstr_eqb n s_four then func libnum2 1 else if cstr_eqb n s_six then func libnum2 2 else 0)
              else if h =? 0 then (if cstr_eqb n s_five then func app2 2 else 0) else 0)
  (fun n => match n with Some x => if cstr_eqb x (of_string "libnum.so") then 7 else if cstr_eqb x (of_string "libnum2.so") then 8 else 0 | None => 0 end)
  1000256.
Definition dlsym (r : outcome (state * list res)) (h : Z) (n : cstr) := dlsym_wrapper demo_env glibc (st_of r) h n.
Example test_dlopen :
  (* gotcha_wrap reports that functions are missing; dlopen and dlsym are intercepted *)
  rs_of dl1 = [RCode 1] /\ p_mem (s_p (st_of dl1)) (slot_of app2 1) = 801 /\ p_mem (s_p (st_of dl1)) (slot_of app2 2) = 802 /\
  (* after the first dlopen *)
  dlsym dl2 7 s_four = Ok (DReturn 504) /\ dlsym dl2 7 s_test_five = Ok (DReturn (func libnum 2)) /\ p_mem (s_p (st_of dl2)) (slot_of libnum 0) = 505 /\
  (* after the second *)
  dlsym dl3 8 s_six = Ok (DReturn 506) /\
  dlsym dl3 0 s_four = Ok (DReturn 504) /\ dlsym dl3 0 s_test_five = Ok (DReturn 0) /\ dlsym dl3 0 s_six = Ok (DReturn 506) /\ dlsym dl3 0 s_dummy = Ok (DReturn 0) /\
  dlsym dl3 RTLD_NEXT s_test_five = Ok (DReturn (func libnum 2)) /\ dlsym dl3 RTLD_NEXT s_dummy = Ok (DReturn 0).
Proof. vm_compute. repeat split. Qed.

(** test/filter/test_filter.c: three wraps under three filters; the program itself is filtered out by the last two *)
Definition app3 := mk_lib 10 [] 1000000 [of_string "main"] [s_four; s_five; s_six] [].
Definition num3 := mk_lib 20 (of_string "libnum.so") 2000000 [s_four; s_five; s_six] [] [].
Definition start3 := filled [(slot_of app3 0, func num3 1); (slot_of app3 1, func num3 2); (slot_of app3 2, func num3 3)].
Definition filter_ops : list op :=
  [OWrap [mkUB s_four 504 604] (Some (of_string "test_filter_four")); OFilter (FName (Some (of_string "libnum3.so")));
   OWrap [mkUB s_five 505 605] (Some (of_string "test_filter_five")); OFilter FLast; OWrap [mkUB s_six 506 606] (Some (of_string "test_filter_six")); OFilter FAlways].
Example test_filter : let r := go [app3; num3; libc] start3 filter_ops in
  rs_of r = [RCode 0; RNone; RCode 0; RNone; RCode 0; RNone] /\
  p_mem (s_p (st_of r)) (slot_of app3 0) = 504 /\ p_mem (s_p (st_of r)) (slot_of app3 1) = func num3 2 /\ p_mem (s_p (st_of r)) (slot_of app3 2) = func num3 3 /\
  (* the last call of the test, gotcha_wrap(func_six, 1, NULL), returns *)
  is_ok (go [app3; num3; libc] start3 (filter_ops ++ [OWrap [mkUB s_six 506 606] None])) = true.
Proof. vm_compute. repeat split. Qed.

(** test/symver/test_symver.c: retX@GOTCHA_1 (index 2, hidden) and retX@@GOTCHA_2 (index 3); the wrapper calls the new one, retX(9) is 10 *)
Definition retX := mk_lib 20 (of_string "libretX.so") 2000000 [s_retX; s_retX] [] [32770; 3].
Example test_symver : let r := go [app1; retX; libc] (filled [(slot_of app1 1, func retX 2)]) [OWrap [mkUB s_retX 501 601] (Some (of_string "symbol_version_test"))] in
  rs_of r = [RCode 0] /\ call r [(501, 601)] (slot_of app1 1) = [501; func retX 2].
Proof. vm_compute. auto. Qed.

(** test/wrap_main: __libc_start_main of libc is called with the wrapper of main, which calls main *)
Example test_wrap_main : let r := go [app1; lib1; libc] start1 [OWrap [mkUB (of_string "main") 507 607] (Some (of_string "test_tool"))] in
  rs_of r = [RCode 0] /\ p_mem (s_p (st_of r)) (slot_of app1 0) = e_w_libc demo_env /\
  internal_libc_start_main demo_env (st_of r) = Ok (Ptr (func libc 1), Ptr 507) /\ path 10 (st_of r) [(507, 607)] 507 = [507; func app1 1].
Proof. vm_compute. repeat split. Qed.

(** test/unit/gotcha_unit_tests.c, symbol_wrap_test: the tool list (the first and the last part; "internal_test_tool" is created before) *)
Definition s_itt := of_string "internal_test_tool".
Definition ts0 : tstate := match create_tool 4096 (mkTS [] None) s_itt with Ok (t, _) => t | Fault _ => mkTS [] None end.
Example test_tools : ts_head ts0 <> None /\ option_map ts_head (match remove_tool_from_list ts0 0 with Ok t => Some t | Fault _ => None end) = Some None.
Proof. vm_compute. split; [discriminate|reflexivity]. Qed.
Example test_priorities : rs_of (go [app1; lib1; libc] start1
    [OWrap [mkUB s_retX 501 601] (Some s_itt); OGetPriority (of_string "dummy"); OGetPriority s_itt; OSetPriority s_itt 10; OGetPriority s_itt]) =
  [RCode 0; RPrio 3 None; RPrio 0 (Some (-1)); RCode 0; RPrio 0 (Some 10)].
Proof. vm_compute. reflexivity. Qed.
(** bad_lookup_test; a hidden function is in no hash table *)
Example test_bad_lookup : rs_of (go [app1; lib1; libc] start1 [OWrap [mkUB (of_string "this_is_the_story_of_a_function_we_shouldnt_find") 501 601] (Some s_itt)]) = [RCode 1] /\
  lookup_exported_symbol false s_dummy lib1 = Ok None.
Proof. vm_compute. auto. Qed.
(** auto_tool_creation: main wrapped three times with one binding; no crash *)
Example test_auto_tool : let b := [mkUB (of_string "main") 507 607] in
  is_ok (go [app1; lib1; libc] start1 [OWrap b (Some (of_string "sample_autocreate_tool")); OWrap b (Some s_itt); OWrap b (Some [])]) = true.
Proof. vm_compute. reflexivity. Qed.
