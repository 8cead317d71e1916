(** Property C65: GOTCHA stores to writable memory only. *)
From Verif Require Import Base ListFacts HashModel HashProofs SpecHash HashTrace ElfModel SpecElf ElfProofs ToolModel CoreModel SpecCore SpecRun SpecSync SpecReg SpecWrit
  ToolProofs CoreMaps CoreSync CoreSync3 CoreProt CoreWrit CoreWrit2 PropsElf Demo PropsCoreEx PropsSyncEx PropsReg.
From Coq Require String.
Import String.StringSyntax.
Open Scope string_scope.
Open Scope list_scope.
Open Scope Z_scope.

(** the pages writable after the events [e1] of the operation that follows the history [ops] *)
Definition writable_at (ps : Z) (ld : loader) (ans : nat -> bool) (e : env) (maps : list lmap) (mem : Z -> Z) (ops : list op) (st : state) (e1 : list pevent) : perm :=
  events ps ans (length (p_prot (s_p st))) (run_perm ps ld ans e (init_state maps mem) (start_perm ld maps) ops) e1.

(** C65: where a store goes when the kernel grants all calls of mprotect: it is to a slot of a loaded library, and a
    page of the slot is writable at that moment exactly if the loader left it so or it is among those GOTCHA asks for,
    which needs a DT_PLTGOT. *)
Theorem C65_stores_law : forall k e ld ans maps mem ops st rs o st' r,
  6 <= k < 63 -> e_ps e = 2 ^ k -> (forall n, ans n = true) -> layout (2 ^ k) e ld maps ops ->
  run e (init_state maps mem) ops = Ok (st, rs) -> gotcha_op o -> step e st o = Ok (st', r) ->
  forall e1 x v e2, new_events st st' = e1 ++ PStore x v :: e2 ->
  exists m n, In m (maps_after maps ops) /\ slot relocs m n x /\
    forall pg, touches (2 ^ k) x pg ->
      (writable_at (2 ^ k) ld ans e maps mem ops st e1 pg <-> ld_rw ld m pg = true \/ patchable (2 ^ k) ld (e_phdrs e (maps_after maps ops)) m pg).
Proof. intros k e ld ans maps mem ops st rs o st' r Hk Eps Y LY E G Es e1 x v e2 Ev. exact (stores_pages k Hk e Eps ld ans Y maps mem ops LY st rs o st' r E G Es e1 x v e2 Ev). Qed.
Print Assumptions C65_stores_law.

(** ... so no store faults if every slot the loader made read-only lies in the RELRO segment of a library with a
    DT_PLTGOT.  Missing: libraries loaded twice, without DT_PLTGOT, and calls of mprotect that fail: see below. *)
Theorem C65_writable_partial : forall k e ld ans maps mem ops st rs o st' r,
  6 <= k < 63 -> e_ps e = 2 ^ k -> (forall n, ans n = true) -> layout (2 ^ k) e ld maps ops ->
  (forall m n x pg, In m (maps_after maps ops) -> slot relocs m n x -> touches (2 ^ k) x pg -> ld_rw ld m pg = false ->
     dyn_get (ld_dyn ld m) DT_PLTGOT 0 <> 0 /\
     exists s t, relro_range (ld_name ld m) (lm_addr m) (e_phdrs e (maps_after maps ops)) = Some (s, t) /\ page (2 ^ k) s <= pg < pages_for (2 ^ k) t) ->
  run e (init_state maps mem) ops = Ok (st, rs) -> gotcha_op o -> step e st o = Ok (st', r) ->
  forall e1 x v e2, new_events st st' = e1 ++ PStore x v :: e2 ->
  forall pg, touches (2 ^ k) x pg -> writable_at (2 ^ k) ld ans e maps mem ops st e1 pg.
Proof.
  intros k e ld ans maps mem ops st rs o st' r Hk Eps Y LY HR E G Es e1 x v e2 Ev pg Hp.
  destruct (C65_stores_law k e ld ans maps mem ops st rs o st' r Hk Eps Y LY E G Es e1 x v e2 Ev) as (m & n & A & B & C). apply C; [auto|].
  destruct (ld_rw ld m pg) eqn:Q; [auto|]. right. destruct (HR m n x pg A B Hp Q) as (H1 & s & t & H2). split; [auto|]. right. eauto.
Qed.
Print Assumptions C65_writable_partial.

(** *** Example: two libraries with the slots in RELRO segments *)
Definition with_got (got : list (Z * Z)) : image :=
  mkImage (removelast (removelast (im_dyn demo_image)) ++ got ++ [(DT_NULL, 0)]) (im_rels demo_image) (im_relas demo_image) (im_syms demo_image) (im_str demo_image) (im_halfs demo_image) (im_words demo_image).
Definition relro_phdrs (maps : list lmap) : list phdr_info :=
  map (fun m => mkPhi (match lm_name m with Some n => n | None => [] end) (lm_addr m) [mkPhdr PT_LOAD 0 8192; mkPhdr PT_GNU_RELRO 0 4096]) maps.
Definition relro_env : env := mkEnv 4096 (fun _ => false) relro_phdrs 801 802 803 804 901 902 903 904 (fun _ => 0).
(** each library has two pages: RELRO with the slots, and writable data *)
Definition relro_ld : loader := mkLd (fun m pg => (lm_addr m / 4096 <=? pg) && (pg <=? lm_addr m / 4096 + 1)) (fun m pg => pg =? lm_addr m / 4096 + 1)
  (fun m => removelast (im_dyn (lm_image m))) (fun m => match lm_name m with Some n => n | None => [] end).
Definition lib_v : lmap := mkLmap 1 (Some (of_string "libv.so")) 65536 4 (with_got [(DT_PLTGOT, 69656)]).
Definition lib_w : lmap := mkLmap 2 (Some (of_string "libw.so")) 131072 4 (with_got [(DT_PLTGOT, 135192)]).
(** linked without a PLT *)
Definition lib_n : lmap := mkLmap 3 (Some (of_string "libn.so")) 131072 4 (with_got []).

Ltac got_dyn := constructor; [discriminate|reflexivity|intros tag Hin; cbn in Hin; destruct Hin as [<-|[<-|[<-|[<-|[<-|[]]]]]]; (split; [vm_compute; discriminate|reflexivity])|split; reflexivity].
Lemma v_dyn : wf_dyn lib_v (ld_dyn relro_ld lib_v).
Proof. got_dyn. Qed.
Lemma w_dyn : wf_dyn lib_w (ld_dyn relro_ld lib_w).
Proof. got_dyn. Qed.
Lemma n_dyn : wf_dyn lib_n (ld_dyn relro_ld lib_n).
Proof. got_dyn. Qed.
Ltac got_wf m W := split; [discriminate|]; exists (ld_dyn relro_ld m); destruct demo_wf_lookup as [_ B C D]; split; [constructor; [exact W|exact B|exact C|exact D]|exact (proj1 demo_tables)].
Lemma v_wf : lib_wf lib_v.
Proof. got_wf lib_v v_dyn. Qed.
Lemma w_wf : lib_wf lib_w.
Proof. got_wf lib_w w_dyn. Qed.
Lemma n_wf : lib_wf lib_n.
Proof. got_wf lib_n n_dyn. Qed.
Lemma relro_wf : env_ok relro_env.
Proof. constructor; [vm_compute; discriminate| |]; repeat constructor; cbn; lia. Qed.

Definition mem_v : Z -> Z := fun x => if x =? 65576 then 66048 else if x =? 65584 then 66048 else 7.
Definition wrap_fg : op := OWrap [mkUB f_name 11 1; mkUB g_name 12 2] (Some n_a).
Definition mem_w : Z -> Z := fun x => if x =? 65576 then 11 else if x =? 65584 then 11 else if x =? 65592 then 12 else 7.
Definition hist_w (m : lmap) : list op := [wrap_fg; OLoad [m] mem_w].
Notation w_run ops := (run relro_env (init_state [lib_v] mem_v) ops).

Lemma w_prefix m l1 l2 : hist_w m = l1 ++ l2 -> maps_after [lib_v] l1 = [lib_v] \/ maps_after [lib_v] l1 = [lib_v; m].
Proof.
  intros E. destruct l1 as [|a [|b [|c l1]]]; cbn in E; [left; reflexivity| | |discriminate].
  - injection E as <- _. left. reflexivity.
  - injection E as <- <- _. right. reflexivity.
Qed.
(** the slots lie on the first page *)
Lemma first_page m n x pg : relocs m = [(40, f_name); (48, f_name); (56, g_name)] -> lm_addr m = 65536 \/ lm_addr m = 131072 -> slot relocs m n x -> touches (2 ^ 12) x pg -> pg = lm_addr m / 4096.
Proof.
  intros R A (off & Hin & ->) [T1 T2]. rewrite R in Hin. unfold page in *.
  destruct A as [A|A]; rewrite A in *; destruct Hin as [H|[H|[H|[]]]]; injection H as <- _; vm_compute in T1, T2 |- *; destruct pg; try tauto; try (exfalso; apply T1; reflexivity);
    repeat (destruct p as [p|p|]; try (exfalso; apply T1; reflexivity); try (exfalso; apply T2; reflexivity); try reflexivity).
Qed.
Lemma on_image m pg : ld_image relro_ld m pg = true <-> lm_addr m / 4096 <= pg <= lm_addr m / 4096 + 1.
Proof. cbn [relro_ld ld_image]. rewrite andb_true_iff, !Z.leb_le. tauto. Qed.
Ltac got_sane W := split; [exact W|]; split; [reflexivity|]; split; [reflexivity|]; split; [reflexivity|];
  intros i Hi; cbn [relro_phdrs map In] in Hi; repeat (destruct Hi as [<-|Hi]; [split; [vm_compute; discriminate|]; intros p [<-|[<-|[]]]; repeat split; vm_compute; discriminate || reflexivity|]); destruct Hi.
Lemma v_sane maps : maps = [lib_v] \/ maps = [lib_v; lib_w] \/ maps = [lib_v; lib_n] -> sane_got (2 ^ 12) (relro_phdrs maps) lib_v (ld_dyn relro_ld lib_v) (ld_name relro_ld lib_v).
Proof. intros [->|[->| ->]]; got_sane v_dyn. Qed.
Lemma w_sane : sane_got (2 ^ 12) (relro_phdrs [lib_v; lib_w]) lib_w (ld_dyn relro_ld lib_w) (ld_name relro_ld lib_w).
Proof. got_sane w_dyn. Qed.
Lemma v_relro maps : maps = [lib_v] \/ maps = [lib_v; lib_w] \/ maps = [lib_v; lib_n] -> relro_range (ld_name relro_ld lib_v) (lm_addr lib_v) (relro_phdrs maps) = Some (65536, 69632).
Proof. intros [->|[->| ->]]; vm_compute; reflexivity. Qed.
Lemma got_image m infos a pg : 0 <= a -> dyn_get (ld_dyn relro_ld m) DT_PLTGOT 0 = lm_addr m + 4120 -> dyn_get (ld_dyn relro_ld m) DT_RELSZ 0 = 0 -> lm_addr m = 4096 * a ->
  relro_range (ld_name relro_ld m) (lm_addr m) infos = Some (lm_addr m, lm_addr m + 4096) -> patchable (2 ^ 12) relro_ld infos m pg -> ld_image relro_ld m pg = true.
Proof.
  intros Ha G R A RR [_ H]. apply on_image. unfold got_page in H. rewrite G, R, RR in H. rewrite A in *. rewrite Z.mul_comm, Z.div_mul by lia. destruct H as [H|(s & t & Est & H)].
  - unfold page in H. change (2 ^ 12) with 4096 in H. replace (4096 * a + 4120) with ((a + 1) * 4096 + 24) in H by lia. rewrite Z.div_add_l in H by lia. change (24 / 4096) with 0 in H. change (Z.max 1 (pages_for 4096 0)) with 1 in H. lia.
  - assert (S1 : s = 4096 * a) by congruence. assert (S2 : t = 4096 * a + 4096) by congruence. rewrite S1, S2 in H. unfold page, pages_for in H. change (2 ^ 12) with 4096 in H. rewrite !(Z.mul_comm 4096 a), Z.div_mul in H by lia. replace (a * 4096 + 4096 + 4096 - 1) with ((a + 1) * 4096 + 4095) in H by lia. rewrite Z.div_add_l in H by lia. change (4095 / 4096) with 0 in H. lia.
Qed.
Lemma w_layout m : m = lib_w \/ m = lib_n -> layout (2 ^ 12) relro_env relro_ld [lib_v] (hist_w m).
Proof.
  intros Hm.
  assert (Ad : lm_addr m = 131072 /\ relocs m = [(40, f_name); (48, f_name); (56, g_name)]) by (destruct Hm as [->| ->]; vm_compute; auto). destruct Ad as [Am Rm].
  assert (Vr : relocs lib_v = [(40, f_name); (48, f_name); (56, g_name)]) by (vm_compute; reflexivity).
  assert (Ml : forall l1 l2, hist_w m = l1 ++ l2 -> maps_after [lib_v] l1 = [lib_v] \/ maps_after [lib_v] l1 = [lib_v; m]) by (intros l1 l2; apply w_prefix).
  assert (Mv : forall maps, maps = [lib_v] \/ maps = [lib_v; m] -> maps = [lib_v] \/ maps = [lib_v; lib_w] \/ maps = [lib_v; lib_n]) by (intros maps [->| ->]; [auto|destruct Hm as [->| ->]; auto]).
  assert (Ic : forall l1 l2 m', hist_w m = l1 ++ l2 -> In m' (maps_after [lib_v] l1) -> m' = lib_v \/ (m' = m /\ maps_after [lib_v] l1 = [lib_v; m])).
  { intros l1 l2 m' E H. destruct (Ml l1 l2 E) as [Q|Q]; rewrite Q in H; cbn in H; [destruct H as [<-|[]]; auto|]. destruct H as [<-|[<-|[]]]; auto. }
  constructor.
  - apply nodup_apart. apply nodupb_ok. destruct Hm as [->| ->]; vm_compute; reflexivity.
  - apply (NoDup_map_inv link_map_hash). rewrite map_map. apply nodupb_ok. destruct Hm as [->| ->]; vm_compute; reflexivity.
  - intros l1 l2 a b pg E H1 H2 I1 I2. apply on_image in I1, I2. destruct (Ic _ _ _ E H1) as [->|[-> _]], (Ic _ _ _ E H2) as [->|[-> _]]; auto; exfalso; rewrite Am in *; change (lm_addr lib_v / 4096) with 16 in *; change (131072 / 4096) with 32 in *; lia.
  - intros l1 l2 a E H. change (e_phdrs relro_env) with relro_phdrs. destruct (Ic _ _ _ E H) as [->|[-> Q]].
    + pose proof (Mv _ (Ml _ _ E)) as V. split; [apply v_dyn|]. split; [reflexivity|]. split; [intros _; apply v_sane; auto|]. intros pg. apply (got_image lib_v _ 16); [lia|reflexivity|reflexivity|reflexivity|apply v_relro; auto].
    + rewrite Q. destruct Hm as [->| ->].
      * split; [apply w_dyn|]. split; [reflexivity|]. split; [intros _; apply w_sane|]. intros pg. apply (got_image lib_w _ 32); [lia|reflexivity|reflexivity|reflexivity|vm_compute; reflexivity].
      * split; [apply n_dyn|]. split; [reflexivity|]. split; [intros N; exfalso; apply N; reflexivity|]. intros pg [N _]. exfalso. apply N. reflexivity.
  - intros l1 l2 k1 k2 a E1 E2 H1 H2. change (e_phdrs relro_env) with relro_phdrs. destruct (Ic _ _ _ E1 H1) as [->|[-> Q1]].
    + rewrite (v_relro _ (Mv _ (Ml _ _ E1))), (v_relro _ (Mv _ (Ml _ _ E2))). reflexivity.
    + destruct (Ic _ _ _ E2 H2) as [->|[_ Q2]]; [exfalso; vm_compute in Am; discriminate Am|]. rewrite Q1, Q2. reflexivity.
  - intros l1 l2 a n x pg E H S T. apply on_image. destruct (Ic _ _ _ E H) as [->|[-> Q]].
    + rewrite (first_page lib_v n x pg Vr (or_introl eq_refl) S T). lia.
    + rewrite (first_page m n x pg Rm (or_intror Am) S T). lia.
Qed.
Lemma layout_prefix ps e ld maps l1 l2 : layout ps e ld maps (l1 ++ l2) -> layout ps e ld maps l1.
Proof.
  intros [A B C D E F]. constructor.
  - intros m m' H H'. apply A; apply seen_mono; auto.
  - rewrite seen_app, map_app in B. clear -B. revert B. generalize (map key_of (seen maps l1)). intros L. induction L as [|x L IH]; intros N; [constructor|]. inversion N as [|? ? N1 N2]; subst. constructor; [|auto]. intros H. apply N1. apply in_or_app. auto.
  - intros k1 k2 m m' pg Ek. apply (C k1 (k2 ++ l2)). rewrite Ek, app_assoc. auto.
  - intros k1 k2 m Ek. apply (D k1 (k2 ++ l2)). rewrite Ek, app_assoc. auto.
  - intros k1 k2 k3 k4 m Ek Ek'. apply (E k1 (k2 ++ l2) k3 (k4 ++ l2)); [rewrite Ek, app_assoc|rewrite Ek', app_assoc]; auto.
  - intros k1 k2 m n x pg Ek. apply (F k1 (k2 ++ l2)). rewrite Ek, app_assoc. auto.
Qed.
Ltac w_process := constructor;
  [exact relro_wf
  |intros m Hm; cbn in Hm; repeat (destruct Hm as [<-|Hm]; [exact v_wf|]); destruct Hm
  |intros o m Ho Hm; cbn in Ho; repeat (destruct Ho as [<-|Ho]; [cbn in Hm; try destruct Hm as [<-|Hm]; try contradiction; try exact w_wf; try exact n_wf|]); try destruct Ho].
Lemma w_fresh ops : freshb ops = true -> fresh relro_env ops.
Proof. intros H. destruct (freshb_ok ops H) as [A B C]. constructor; auto. Qed.

(** the hypotheses hold when libw.so is loaded, and its slots are rewritten after its pages were made writable *)
Example c65_hyps : layout (2 ^ 12) relro_env relro_ld [lib_v] (hist_w lib_w) /\ process_ok relro_env [lib_v] (hist_w lib_w ++ [OFinish]) /\
  (forall m n x pg, In m (maps_after [lib_v] (hist_w lib_w)) -> slot relocs m n x -> touches (2 ^ 12) x pg -> ld_rw relro_ld m pg = false ->
     dyn_get (ld_dyn relro_ld m) DT_PLTGOT 0 <> 0 /\
     exists s t, relro_range (ld_name relro_ld m) (lm_addr m) (e_phdrs relro_env (maps_after [lib_v] (hist_w lib_w))) = Some (s, t) /\ page (2 ^ 12) s <= pg < pages_for (2 ^ 12) t).
Proof.
  split; [apply w_layout; auto|]. split; [w_process|]. intros m n x pg [<-|[<-|[]]] S T _; (split; [vm_compute; discriminate|]).
  - exists 65536, 69632. split; [vm_compute; reflexivity|]. rewrite (first_page lib_v n x pg) by (auto || (vm_compute; auto)). vm_compute. split; [discriminate|reflexivity].
  - exists 131072, 135168. split; [vm_compute; reflexivity|]. rewrite (first_page lib_w n x pg) by (auto || (vm_compute; auto)). vm_compute. split; [discriminate|reflexivity].
Qed.
Example c65_run : let st := st_of (w_run (hist_w lib_w)) in let out := step relro_env st OFinish in
  is_ok (w_run (hist_w lib_w)) = true /\ is_ok out = true /\
  new_events st (stepped out) = [PProtect (131072, 8192); PStore 131112 11; PStore 131120 11; PStore 131128 12] /\
  (ld_rw relro_ld lib_w (page 4096 131112), ld_rw relro_ld lib_w (page 4096 135192)) = (false, true).
Proof. vm_compute. auto. Qed.

(** *** Refutations *)
(** C65: libn.so has no DT_PLTGOT (it was linked with -fno-plt and full RELRO); dlopen has loaded it.  GOTCHA does not make its RELRO
    segment writable, but rewrites the slots there. *)
Theorem C65_no_pltgot_refuted : exists k e ld ans maps mem ops st rs o st' r e1 x v e2 pg,
  6 <= k < 63 /\ e_ps e = 2 ^ k /\ (forall n, ans n = true) /\ layout (2 ^ k) e ld maps ops /\ process_ok e maps (ops ++ [o]) /\ fresh e (ops ++ [o]) /\
  run e (init_state maps mem) ops = Ok (st, rs) /\ gotcha_op o /\ step e st o = Ok (st', r) /\
  new_events st st' = e1 ++ PStore x v :: e2 /\ touches (2 ^ k) x pg /\ ~ writable_at (2 ^ k) ld ans e maps mem ops st e1 pg.
Proof.
  pose (r0 := w_run (hist_w lib_n)). pose (out := step relro_env (st_of r0) OFinish).
  assert (E0 : r0 = Ok (st_of r0, rs_of r0)) by (apply run_of; vm_compute; reflexivity).
  assert (E1 : step relro_env (st_of r0) OFinish = Ok (stepped out, result out)) by (apply step_of; vm_compute; reflexivity).
  assert (EV : new_events (st_of r0) (stepped out) = [] ++ PStore 131112 11 :: [PStore 131120 11; PStore 131128 12]) by (vm_compute; reflexivity).
  exists 12, relro_env, relro_ld, (fun _ => true), [lib_v], mem_v, (hist_w lib_n), (st_of r0), (rs_of r0), OFinish, (stepped out), (result out), [], 131112, 11, [PStore 131120 11; PStore 131128 12], 32.
  assert (LY : layout (2 ^ 12) relro_env relro_ld [lib_v] (hist_w lib_n)) by (apply w_layout; auto).
  assert (TO : touches (2 ^ 12) 131112 32) by (vm_compute; split; discriminate).
  split; [lia|]. split; [reflexivity|]. split; [auto|]. split; [exact LY|]. split; [w_process|]. split; [apply w_fresh; vm_compute; reflexivity|].
  split; [exact E0|]. split; [exact I|]. split; [exact E1|]. split; [exact EV|]. split; [exact TO|].
  destruct (C65_stores_law 12 relro_env relro_ld (fun _ => true) [lib_v] mem_v (hist_w lib_n) _ _ OFinish _ _ ltac:(lia) eq_refl (fun _ => eq_refl) LY E0 I E1 _ _ _ _ EV) as (m & n & Hm & Hs & H).
  rewrite (H 32 TO). destruct Hm as [<-|[<-|[]]].
  - pose proof (first_page lib_v n 131112 32 ltac:(vm_compute; reflexivity) (or_introl eq_refl) Hs TO) as Q. vm_compute in Q. discriminate Q.
  - intros [Q|[Q _]]; [vm_compute in Q; discriminate Q|apply Q; reflexivity].
Qed.
Print Assumptions C65_no_pltgot_refuted.

(** C65: the kernel refuses to make libv.so's GOT writable; gotcha_wrap goes on to rewrite it. *)
Definition wrap_h : op := OWrap [mkUB n_b 21 3] (Some n_a).
Definition wrap_f : op := OWrap [mkUB f_name 11 1] (Some n_a).
Lemma start_16 : ~ start_perm relro_ld [lib_v] 16.
Proof. unfold start_perm. cbn [fold_left]. unfold load_lib. change (ld_image relro_ld lib_v 16) with true. cbn match. discriminate. Qed.
Theorem C65_mprotect_refuted : exists k e ld ans maps mem st' e1 x v e2 pg o,
  6 <= k < 63 /\ e_ps e = 2 ^ k /\ layout (2 ^ k) e ld maps [] /\ process_ok e maps [o] /\ fresh e [o] /\
  gotcha_op o /\ step e (init_state maps mem) o = Ok (st', RCode GOTCHA_SUCCESS) /\
  new_events (init_state maps mem) st' = e1 ++ PStore x v :: e2 /\ touches (2 ^ k) x pg /\
  (exists m, In m maps /\ patchable (2 ^ k) ld (e_phdrs e maps) m pg) /\ (exists c, In (PProtect c) e1 /\ covers (2 ^ k) [c] pg) /\
  ~ writable_at (2 ^ k) ld ans e maps mem [] (init_state maps mem) e1 pg.
Proof.
  pose (out := step relro_env (init_state [lib_v] mem_v) wrap_f).
  exists 12, relro_env, relro_ld, (fun _ => false), [lib_v], mem_v, (stepped out), [PProtect (65536, 8192)], 65576, 11, [PStore 65584 11], 16, wrap_f.
  split; [lia|]. split; [reflexivity|]. split; [apply (layout_prefix _ _ _ _ [] (hist_w lib_w)); apply w_layout; auto|]. split; [w_process|]. split; [apply w_fresh; vm_compute; reflexivity|].
  split; [exact I|]. split. { transitivity (Ok (stepped out, result out)); [apply step_of; vm_compute; reflexivity|]. f_equal. }
  split; [vm_compute; reflexivity|]. split; [vm_compute; split; discriminate|]. split.
  - exists lib_v. split; [left; auto|]. split; [vm_compute; discriminate|]. right. exists 65536, 69632. split; [vm_compute; reflexivity|]. vm_compute. split; [discriminate|reflexivity].
  - split; [exists (65536, 8192); split; [left; auto|]; exists 65536, 8192; split; [left; auto|]; vm_compute; split; [discriminate|reflexivity]|].
    unfold writable_at. cbn [run_perm events event]. intros [H|[H _]]; [exact (start_16 H)|discriminate H].
Qed.
Print Assumptions C65_mprotect_refuted.

(** ... and does not ask again: the first call of gotcha_wrap, for a function libv.so does not use, is refused the
    pages, all later requests would be granted, but the next gotcha_wrap makes none before it rewrites the slots. *)
Theorem C65_no_retry_refuted : exists k e ld ans maps mem ops st rs st' r e1 x v e2 pg o,
  6 <= k < 63 /\ e_ps e = 2 ^ k /\ layout (2 ^ k) e ld maps ops /\ process_ok e maps (ops ++ [o]) /\ fresh e (ops ++ [o]) /\
  run e (init_state maps mem) ops = Ok (st, rs) /\ (forall n, (length (p_prot (s_p st)) <= n)%nat -> ans n = true) /\
  gotcha_op o /\ step e st o = Ok (st', r) /\ p_prot (s_p st') = p_prot (s_p st) /\
  new_events st st' = e1 ++ PStore x v :: e2 /\ touches (2 ^ k) x pg /\ ~ writable_at (2 ^ k) ld ans e maps mem ops st e1 pg.
Proof.
  pose (r0 := w_run [wrap_h]). pose (out := step relro_env (st_of r0) wrap_f). pose (out0 := step relro_env (init_state [lib_v] mem_v) wrap_h).
  assert (E0 : r0 = Ok (st_of r0, rs_of r0)) by (apply run_of; vm_compute; reflexivity).
  exists 12, relro_env, relro_ld, (fun n => negb (Nat.eqb n 0)), [lib_v], mem_v, [wrap_h], (st_of r0), (rs_of r0), (stepped out), (result out), [], 65576, 11, [PStore 65584 11], 16, wrap_f.
  split; [lia|]. split; [reflexivity|]. split.
  { assert (LY : layout (2 ^ 12) relro_env relro_ld [lib_v] []) by (apply (layout_prefix _ _ _ _ [] (hist_w lib_w)); apply w_layout; auto).
    assert (P : forall l1 l2, [wrap_h] = l1 ++ l2 -> maps_after [lib_v] l1 = [lib_v]) by (intros [|a [|b l1]] l2 E; [reflexivity|injection E as <- _; reflexivity|discriminate E]).
    destruct LY as [A B C D E F]. constructor; [exact A|exact B| | | |].
    - intros l1 l2 m m' pg El. rewrite (P _ _ El). apply (C [] [] m m' pg eq_refl).
    - intros l1 l2 m El. rewrite (P _ _ El). apply (D [] [] m eq_refl).
    - intros l1 l2 k1 k2 m El Ek. rewrite (P _ _ El), (P _ _ Ek). reflexivity.
    - intros l1 l2 m n x pg El. rewrite (P _ _ El). apply (F [] [] m n x pg eq_refl). }
  split; [w_process|]. split; [apply w_fresh; vm_compute; reflexivity|]. split; [exact E0|]. split.
  { intros [|n] H; [|reflexivity]. vm_compute in H. inversion H. }
  split; [exact I|]. split; [apply step_of; vm_compute; reflexivity|]. split; [vm_compute; reflexivity|]. split; [vm_compute; reflexivity|]. split; [vm_compute; split; discriminate|].
  unfold writable_at. cbn [events run_perm].
  assert (E1 : step relro_env (init_state [lib_v] mem_v) wrap_h = Ok (stepped out0, result out0)) by (apply step_of; vm_compute; reflexivity). rewrite E1.
  unfold op_perm, wrap_h. assert (EV : new_events (init_state [lib_v] mem_v) (stepped out0) = [PProtect (65536, 8192)]) by (vm_compute; reflexivity). rewrite EV.
  cbn [events event length p_prot s_p init_state p_log protects flat_map]. intros [H|[H _]]; [exact (start_16 H)|discriminate H].
Qed.
Print Assumptions C65_no_retry_refuted.
