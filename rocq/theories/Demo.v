(** A small process used by the examples and counterexamples: library "libd.so" exports f and calls f and g
    (PropsElf.demo_lib); library "libg.so" exports g. *)
From Verif Require Import Base ListFacts ElfModel SpecElf ElfProofs ToolModel CoreModel SpecCore SpecRun PropsElf.
From Coq Require String.
Import String.StringSyntax.
Open Scope string_scope.
Open Scope list_scope.
Open Scope Z_scope.

Definition demo_phdrs (maps : list lmap) : list phdr_info :=
  map (fun m => mkPhi (match lm_name m with Some n => n | None => [] end) (lm_addr m) [mkPhdr PT_LOAD 0 4096]) maps.
Definition demo_env : env := mkEnv 4096 (fun _ => false) demo_phdrs 801 802 803 804 901 902 903 904 (fun _ => 0).
(** demo_lib at another place *)
Definition placed (m : lmap) (ptr : Z) (name : cstr) (addr : Z) : lmap := mkLmap ptr (Some name) addr (lm_ld m) (lm_image m).
Definition g_image : image := mkImage [(DT_GNU_HASH, 4096); (DT_SYMTAB, 6000); (DT_STRTAB, 7000); (DT_NULL, 0)]
     (fun _ => []) (fun _ => []) (fun _ => [mkSym 0 0 0 0 0; mkSym 1 256 8 2 9]) (fun a => if a =? 7001 then g_name else [])
     (fun _ => []) (fun _ => [1; 1; 0; 0; 1; 177677]).
Definition g_lib : lmap := mkLmap 2 (Some (of_string "libg.so")) 1048576 4 g_image.

Lemma env_wf : env_ok demo_env.
Proof. constructor; [vm_compute; discriminate| |]; repeat constructor; cbn; lia. Qed.
Lemma demo_lib_wf ptr name addr : lib_wf (placed demo_lib ptr name addr).
Proof.
  split; [discriminate|]. exists demo_es. split.
  - destruct demo_wf_lookup as [[A1 A2 A3 A4] B C D]. constructor; [constructor; [discriminate|exact A2|exact A3|exact A4]|exact B|exact C|exact D].
  - exact (proj1 demo_tables).
Qed.
Lemma demo_wf : lib_wf demo_lib.
Proof. exact (demo_lib_wf 1 (of_string "libd.so") 65536). Qed.
Lemma g_lib_wf : lib_wf g_lib.
Proof.
  split; [discriminate|]. exists (removelast (im_dyn g_image)). split.
  - constructor.
    + constructor; [discriminate|reflexivity| |split; reflexivity].
      intros tag Hin. cbn in Hin. destruct Hin as [<-|[<-|[<-|[<-|[<-|[]]]]]]; (split; [vm_compute; discriminate|reflexivity]).
    + exact I.
    + intros _. exists 1, 1, [1], [177677].
      assert (HC : gnu_chain [177677] 1 1 [1]) by (eapply gc_last; [lia|reflexivity|reflexivity]).
      constructor.
      * exists 0, 0, []. split; [reflexivity|split; [reflexivity|lia]].
      * split; [lia|reflexivity].
      * split; [lia|reflexivity].
      * reflexivity.
      * intros b s Hb. destruct b as [|[|]]; try discriminate. injection Hb as <-. right. eauto.
      * intros i n Hi Hn. assert (i = 1) as -> by (cbn in Hi; lia). vm_compute in Hn. injection Hn as <-.
        split; [eexists; split; reflexivity|]. exists 1, [1]. split; [reflexivity|split; [exact HC|cbn; auto]].
    + intros H. exfalso. apply H. reflexivity.
  - split; [vm_compute; discriminate|]. split; [intros H; exfalso; apply H; reflexivity|]. intros r [].
Qed.

(** the result of a run *)
Definition st_of (r : outcome (state * list res)) : state := match r with Ok (s, _) => s | Fault _ => init_state [] (fun _ => 0) end.
Definition rs_of (r : outcome (state * list res)) : list res := match r with Ok (_, x) => x | Fault _ => [] end.
Definition is_ok {A} (r : outcome A) : bool := match r with Ok _ => true | Fault _ => false end.
Lemma run_of r : is_ok r = true -> r = Ok (st_of r, rs_of r).
Proof. destruct r as [[s x]|]; [reflexivity|discriminate]. Qed.

(** a history of the process that starts with the libraries [demo_libs], decided by computation *)
Definition demo_libs : list lmap := [demo_lib].
Fixpoint nodupb (l : list Z) : bool := match l with [] => true | x :: r => negb (existsb (Z.eqb x) r) && nodupb r end.
Lemma nodupb_ok l : nodupb l = true -> NoDup l.
Proof.
  induction l as [|x r IH]; cbn; intros H; [constructor|]. apply andb_prop in H. destruct H as [H1 H2]. constructor; [|auto].
  intros Hin. apply negb_true_iff in H1. assert (existsb (Z.eqb x) r = true) by (apply existsb_exists; exists x; split; [auto|apply Z.eqb_refl]). congruence.
Qed.
(** sufficient for freshness: all handles and all wrappers differ, also from GOTCHA's own ones *)
Definition freshb (ops : list op) : bool :=
  nodupb (map ub_handle (user_binds ops) ++ internal_handles demo_env) && nodupb (map ub_wrapper (user_binds ops) ++ internal_wrappers demo_env).
Lemma freshb_ok ops : freshb ops = true -> fresh demo_env ops.
Proof.
  intros H. apply andb_prop in H. destruct H as [H1 H2]. apply nodupb_ok in H1, H2.
  assert (D : forall l1 l2 : list Z, NoDup (l1 ++ l2) -> NoDup l1 /\ forall x, In x l1 -> ~ In x l2).
  { induction l1 as [|y l1 IH]; intros l2 N; [split; [constructor|intros x []]|]. inversion N as [|? ? N1 N2]; subst. destruct (IH _ N2) as [A B]. split.
    - constructor; [|auto]. intros Hin. apply N1. apply in_or_app. auto.
    - intros x [<-|Hx]; [|auto]. intros Hin. apply N1. apply in_or_app. auto. }
  destruct (D _ _ H1) as [A1 A2], (D _ _ H2) as [B1 B2]. constructor.
  - auto.
  - clear -B1. induction (user_binds ops) as [|u r IH]; [constructor|]. cbn in *. inversion B1 as [|? ? N1 N2]; subst. constructor; [|auto].
    intros Hin. apply N1. apply in_map_iff in Hin. destruct Hin as (v & E & Hv). injection E as _ E. apply in_map_iff. eauto.
  - intros u Hu. split; [apply A2|apply B2]; apply in_map; auto.
Qed.
