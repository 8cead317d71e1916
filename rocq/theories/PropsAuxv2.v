(** Which library is taken for the vdso, and which line of /proc/self/maps, in every case: laws for C53 and C54. *)
From Verif Require Import Base ListFacts LibcModel SpecLibc LibcProofs LibcProofs2 LibcProofs3 AuxvModel SpecAuxv AuxvProofs AuxvProofs2 PropsLibc PropsAuxv.
From Coq Require String.
Import String.StringSyntax.
Open Scope string_scope.
Open Scope list_scope.
Open Scope Z_scope.

(** *** C54: names with white space *)
(** Every line whose fields are well formed, whatever its name, is read as if the name ended at the first white space. *)
Theorem C54_any_name_law : forall l b e name w line buf,
  maps_text l b e name -> first_word name w -> in_u64 b -> in_u64 e -> bytes_at line 0 (l ++ [10; 0]) -> zlen l <= 4094 -> accessible buf 0 4096 ->
  exists buf', parse_maps_line line buf = Ok (buf', if cstr_eq_dec w (of_string "[vdso]") then Some (b, e) else None) /\ str_at buf' 0 w.
Proof. intros l b e name w line buf M F Ib Ie B L A. destruct (parse_maps_text l b e name w line buf M F Ib Ie B L A) as (b' & E & _ & S). eauto. Qed.
Print Assumptions C54_any_name_law.

(** *** C54: interrupted reads *)
Lemma overlay_from m1 m m' : forall g p, (forall a : nat, p <= Z.of_nat a -> nth_error m1 a = nth_error m a) -> 0 <= p -> overlay m1 m' p g -> overlay m m' p g.
Proof.
  induction g as [|[b|] g IH]; intros p H P O; cbn [overlay] in *; [auto|destruct O as [O1 O2]; split; [exact O1|]; apply IH; [|lia|exact O2]; intros a Ha; apply H; lia|].
  destruct O as [O1 O2]. split; [rewrite O1; apply H; lia|]. apply IH; [|lia|exact O2]. intros a Ha. apply H. lia.
Qed.
Lemma read_line_loop_gaps size rest : forall sched l g sched', with_gaps sched l g sched' -> forall n line i, Forall (fun c => 1 <= c <= 255) l -> l <> [] ->
  (forall l1 l2, l = l1 ++ 10 :: l2 -> l2 = []) ->
  accessible line 0 size -> 0 <= i -> Z.of_nat n = size - 1 - i -> (In 10 l -> zlen g <= Z.of_nat n) -> (~ In 10 l -> zlen g = Z.of_nat n) ->
  exists line', read_line_loop n line i size (l ++ rest, sched) = Ok (line', 0, (rest, sched')) /\
    overlay line line' i g /\ holds line' (i + zlen g) 0 /\ same_but line line' i (zlen g + 1).
Proof.
  assert (K : forall sched s1 b l g s' n line i, kread 1 (b :: l ++ rest, sched) = (Got [b], (l ++ rest, s1)) -> with_gaps s1 l g s' ->
    (forall n line i, Forall (fun c => 1 <= c <= 255) l -> l <> [] -> (forall l1 l2, l = l1 ++ 10 :: l2 -> l2 = []) ->
      accessible line 0 size -> 0 <= i -> Z.of_nat n = size - 1 - i -> (In 10 l -> zlen g <= Z.of_nat n) -> (~ In 10 l -> zlen g = Z.of_nat n) ->
      exists line', read_line_loop n line i size (l ++ rest, s1) = Ok (line', 0, (rest, s')) /\
        overlay line line' i g /\ holds line' (i + zlen g) 0 /\ same_but line line' i (zlen g + 1)) ->
    Forall (fun c => 1 <= c <= 255) (b :: l) -> (forall l1 l2, b :: l = l1 ++ 10 :: l2 -> l2 = []) ->
    accessible line 0 size -> 0 <= i -> Z.of_nat n = size - 1 - i -> (In 10 (b :: l) -> zlen (Some b :: g) <= Z.of_nat n) -> (~ In 10 (b :: l) -> zlen (Some b :: g) = Z.of_nat n) ->
    exists line', read_line_loop n line i size ((b :: l) ++ rest, sched) = Ok (line', 0, (rest, s')) /\
      overlay line line' i (Some b :: g) /\ holds line' (i + zlen (Some b :: g)) 0 /\ same_but line line' i (zlen (Some b :: g) + 1)).
  { intros sched s1 b l g s' n line i Ek Wg IH Wl Nl A I0 En L1 L2.
    assert (Ln : zlen (Some b :: g) <= Z.of_nat n) by (destruct (in_dec Z.eq_dec 10 (b :: l)); [auto|rewrite L2; auto; lia]).
    destruct n as [|n]; [cbn [length] in Ln; lia|]. cbn [read_line_loop Datatypes.app]. rewrite Ek.
    inversion Wl as [|? ? Hb Wl']; subst. destruct (A i ltac:(lia)) as [b0 Hb0]. destruct (st_ok line i b0 b Hb0) as (m1 & -> & H1 & S1). cbn [bind].
    rewrite Z.mod_small in H1 by lia.
    assert (A1 : accessible m1 0 size) by (eapply same_but_accessible; eauto; intros a Ha; replace a with i by lia; eauto).
    cbn [length] in *. destruct (Z.eqb_spec b 10) as [->|Nb].
    - assert (l = []) by (apply (Nl []); reflexivity). subst l. inversion Wg; subst.
      destruct (A1 (i + 1) ltac:(lia)) as [b' Hb']. destruct (st_ok m1 (i + 1) b' 0 Hb') as (m2 & -> & H2 & S2). cbn [bind Datatypes.app]. exists m2. split; [reflexivity|]. split; [|split].
      + split; [|exact I]. eapply same_but_holds; eauto. lia.
      + exact H2.
      + cbn [length]. eapply same_but_trans; eapply same_but_wider; eauto; cbn [length]; lia.
    - destruct l as [|c l].
      + inversion Wg; subst. assert (n = O). { cbn [length] in L2. assert (~ In 10 [b]) by (intros [J|[]]; congruence). specialize (L2 H). lia. } subst n.
        cbn [read_line_loop Datatypes.app]. destruct (A1 (size - 1) ltac:(lia)) as [b' Hb']. destruct (st_ok m1 (size - 1) b' 0 Hb') as (m2 & -> & H2 & S2). cbn [bind]. exists m2. split; [reflexivity|].
        replace (size - 1) with (i + 1) in * by lia. split; [|split].
        * split; [|exact I]. eapply same_but_holds; eauto. lia.
        * exact H2.
        * cbn [length]. eapply same_but_trans; eapply same_but_wider; eauto; cbn [length]; lia.
      + destruct (IH n m1 (i + 1)) as (m2 & E & O & H2 & S2); auto; try lia; try discriminate.
        * intros l1 l2 El. apply (Nl (b :: l1)). rewrite El. reflexivity.
        * intros J. assert (J' : ~ In 10 (b :: c :: l)) by (intros [J'|J']; [congruence|auto]). specialize (L2 J'). lia.
        * exists m2. split; [exact E|]. split; [|split].
          -- split; [eapply same_but_holds; eauto; lia|]. apply (overlay_from m1); [|lia|exact O]. intros a Ha. apply S1. lia.
          -- replace (i + Z.of_nat (S (length g))) with (i + 1 + zlen g) by lia. exact H2.
          -- eapply same_but_trans; eapply same_but_wider; eauto; lia. }
  intros sched l g sched' W. induction W as [s|b l g s' W IH|k s b l g s' W IH|s b l g s' W IH]; intros n line i Wl Nn Nl A I0 En L1 L2.
  - congruence.
  - apply (K [] []); auto.
  - apply (K (RGive k :: s) s); auto.
  - assert (Ln : zlen (@None Z :: g) <= Z.of_nat n) by (destruct (in_dec Z.eq_dec 10 (b :: l)); [auto|rewrite L2; auto; lia]).
    destruct n as [|n]; [cbn [length] in Ln; lia|]. cbn [read_line_loop kread]. cbn [length] in *.
    destruct (IH n line (i + 1)) as (m2 & E & O & H2 & S2); auto; try lia. { intros J. specialize (L2 J). lia. }
    exists m2. split; [exact E|]. split; [|split].
    + cbn [overlay]. split; [|exact O]. apply S2. lia.
    + replace (i + Z.of_nat (S (length g))) with (i + 1 + zlen g) by lia. exact H2.
    + eapply same_but_wider; eauto; lia.
Qed.
(** A line read with interruptions: the array shows its bytes in order, and at each interruption one byte of what it held
    before.  This is so whenever bytes and interruptions together fit. *)
Theorem C54_interrupt_law : forall l rest sched g sched' line, wf_cstr l -> ~ In 10 l -> with_gaps sched (l ++ [10]) g sched' -> zlen g <= 4095 -> accessible line 0 4096 ->
  exists line', read_line line 4096 (l ++ 10 :: rest, sched) = Ok (line', 0, (rest, sched')) /\
    overlay line line' 0 g /\ holds line' (zlen g) 0 /\ same_but line line' 0 (zlen g + 1).
Proof.
  intros l rest sched g sched' line W N G L A. replace (l ++ 10 :: rest) with ((l ++ [10]) ++ rest) by (rewrite <- app_assoc; reflexivity).
  apply (read_line_loop_gaps 4096 rest sched _ g sched' G); auto; try lia.
  - apply Forall_app. split; [exact W|]. constructor; [lia|constructor].
  - intros E. apply app_eq_nil in E as [_ E]. discriminate E.
  - intros l1 l2 E. destruct l2 as [|x l2]; [reflexivity|exfalso]. apply N.
    destruct (exists_last (l := x :: l2)) as (q & z & Eq); [discriminate|]. rewrite Eq in E. change (l1 ++ 10 :: q ++ [z]) with (l1 ++ (10 :: q) ++ [z]) in E. rewrite app_assoc in E.
    apply app_inj_tail in E as [E _]. rewrite E. apply in_or_app. right. left. reflexivity.
  - intros J. elim J. apply in_or_app. right. left. reflexivity.
Qed.
Print Assumptions C54_interrupt_law.
(** If they do not fit, 4095 bytes and interruptions are taken for a line. *)
Theorem C54_long_line_law : forall l rest sched g sched' line, wf_cstr l -> ~ In 10 l -> l <> [] -> with_gaps sched l g sched' -> zlen g = 4095 -> accessible line 0 4096 ->
  exists line', read_line line 4096 (l ++ rest, sched) = Ok (line', 0, (rest, sched')) /\
    overlay line line' 0 g /\ holds line' 4095 0 /\ same_but line line' 0 4096.
Proof.
  intros l rest sched g sched' line W N Nn G L A.
  destruct (read_line_loop_gaps 4096 rest sched _ g sched' G (Z.to_nat (4096 - 1)) line 0) as (m' & E & O & H & S); auto; try lia.
  - intros l1 l2 E. elim N. rewrite E. apply in_or_app. right. left. reflexivity.
  - exists m'. rewrite L in *. auto.
Qed.
Print Assumptions C54_long_line_law.
(** if no read fails, every line is read with some gaps *)
Theorem C54_gaps_cover : forall sched l, no_error sched -> exists g sched', with_gaps sched l g sched' /\
  flat_map (fun o => match o with Some b => [b] | None => [] end) g = l.
Proof.
  induction sched as [|[n| |] s IH]; intros l N.
  - induction l as [|b l (g & s' & G & E)]; [exists [], []; split; [constructor|reflexivity]|]. exists (Some b :: g), s'. split; [constructor; exact G|]. cbn. now rewrite E.
  - destruct l as [|b l]; [exists [], (RGive n :: s); split; [constructor|reflexivity]|]. destruct (IH l) as (g & s' & G & E); [intros J; apply N; right; exact J|].
    exists (Some b :: g), s'. split; [constructor; exact G|]. cbn. now rewrite E.
  - destruct l as [|b l]; [exists [], (RIntr :: s); split; [constructor|reflexivity]|]. destruct (IH (b :: l)) as (g & s' & G & E); [intros J; apply N; right; exact J|].
    exists (None :: g), s'. split; [constructor; exact G|]. exact E.
  - elim N. left. reflexivity.
Qed.
Print Assumptions C54_gaps_cover.
Example C54_interrupt_ex : with_gaps [RGive 0; RIntr] (lit "ab" ++ [10]) [Some 97; None; Some 98; Some 10] [].
Proof. vm_compute. repeat constructor. Qed.

Lemma first_word_ex name : exists w, first_word name w.
Proof.
  induction name as [|c r (w & t & E & F & T)]; [exists [], []; auto|]. destruct (in_dec Z.eq_dec c [32; 9; 10]) as [I|N].
  - exists [], (c :: r). split; [auto|]. split; [constructor|]. right. eauto.
  - exists (c :: w), t. split; [cbn; congruence|]. split; [constructor; auto|auto].
Qed.
Lemma first_word_fun name w w' : first_word name w -> first_word name w' -> w = w'.
Proof.
  intros (t & E & F & T) (t' & E' & F' & T'). subst name. revert w' E' F'. induction w as [|c w IH]; intros [|c' w'] E' F'; auto; cbn in E'.
  - destruct T as [->|(d & q & -> & I)]; [discriminate E'|]. injection E' as -> _. inversion F'; contradiction.
  - destruct T' as [->|(d & q & -> & I)]; [discriminate E'|]. injection E' as <- _. inversion F; contradiction.
  - injection E' as <- E'. inversion F; subst. inversion F'; subst. f_equal. apply IH; auto.
Qed.
Lemma maps_text_wf l b e name : maps_text l b e name -> wf_cstr l /\ ~ In 10 l.
Proof.
  intros (bs & es & pe & off & dev & ino & pad & Hb & He & Pp & Po & Pd & Pi & Sp & Nm & ->).
  apply hex_text_wf in Hb as (? & ? & _). apply hex_text_wf in He as (? & ? & _). apply plain_word_nl in Pp as (? & ?). apply plain_word_nl in Po as (? & ?).
  apply plain_word_nl in Pd as (? & ?). apply plain_word_nl in Pi as (? & ?).
  assert (wf_cstr pad /\ ~ In 10 pad) as [? ?].
  { split; [eapply Forall_impl; [|exact Sp]; cbn; intros ? ->; lia|]. intros J. rewrite Forall_forall in Sp. specialize (Sp 10 J). lia. }
  assert (wf_cstr name /\ ~ In 10 name) as [? ?].
  { destruct Nm as [->|(W & N & _)]; [split; [constructor|auto]|auto]. }
  assert (wf_cstr [45] /\ wf_cstr [32]) as [? ?] by (split; repeat constructor; lia).
  split; [rewrite !wf_app; tauto|]. rewrite !in_app_iff. cbn. intuition lia.
Qed.
(** the search *)
Definition found (es : list mapping) (r : option (Z * Z)) : Prop :=
  match r with Some (b, e) => exists n, first_with labelled es (b, e, n) | None => forall x, In x es -> ~ labelled x end.
Lemma maps_loop_text : forall ls es fuel line name sched, Forall2 text_describes ls es -> steady sched -> accessible line 0 4096 -> accessible name 0 4096 -> (length es < fuel)%nat ->
  exists r, maps_loop fuel line name (flat_map (fun l => l ++ [10]) ls, sched) = Ok r /\ found es r.
Proof.
  induction ls as [|l ls IH]; intros es fuel line name sched D S AL AN F; inversion D as [|? [[b e] nm] ? es' Dx D']; subst; (destruct fuel as [|g]; [cbn in F; lia|]); cbn [maps_loop flat_map].
  - destruct (read_line_eof line sched S AL) as (l' & f & E). rewrite E. cbn [bind Z.eqb negb]. exists None. split; [auto|]. intros x [].
  - destruct Dx as (Hl & Ib & Ie & Ll). destruct (maps_text_wf _ _ _ _ Hl) as [Wl Nl].
    rewrite <- app_assoc. cbn [Datatypes.app]. set (rest := flat_map (fun l => l ++ [10]) ls) in *.
    destruct (read_line_loop_ok 4096 rest l (Z.to_nat (4096 - 1)) line 0 sched Wl Nl S AL) as (line' & sched' & E & S' & B & _ & A'); try lia.
    unfold read_line, BUFFER_LEN. rewrite E. cbn [bind Z.eqb negb]. destruct (first_word_ex nm) as (w & Fw).
    destruct (parse_maps_text l b e nm w line' name Hl Fw Ib Ie B Ll AN) as (name' & -> & AN' & _). cbn [bind].
    destruct (cstr_eq_dec w vdso_label) as [->|Nn].
    + exists (Some (b, e)). split; [auto|]. exists nm, [], es'. split; [auto|]. split; [exact Fw|]. intros x [].
    + assert (Nx : ~ labelled (b, e, nm)) by (intros J; apply Nn; exact (first_word_fun _ _ _ Fw J)).
      destruct (IH es' g line' name' sched' D' S' A' AN' ltac:(cbn [length] in F; lia)) as (r & E2 & V).
      unfold BUFFER_LEN in *. rewrite E2. exists r. split; [auto|]. destruct r as [[b' e']|]; cbn in *.
      * destruct V as (n & be & af & -> & P & Q). exists n, ((b, e, nm) :: be), af. split; [auto|]. split; [auto|]. intros x [<-|J]; [exact Nx|auto].
      * intros x [<-|J]; [exact Nx|apply V; auto].
Qed.
Lemma text_length ls es : Forall2 text_describes ls es -> (length es <= length (flat_map (fun l : list Z => l ++ [10%Z]) ls))%nat.
Proof. induction 1; cbn [flat_map length]; [lia|]. rewrite !app_length. cbn [length]. lia. Qed.

(** *** C53 *)
Lemma ehdr_parse w e : ehdr_said w e -> zlen (w_buffer w) = 4096 -> exists a q, parse_auxv_contents (w_auxv w) (w_buffer w) auxv_init = Ok (a, q) /\ av_ehdr a = e.
Proof.
  intros H LB. destruct H as [ents data sched e E A NE (l1 & l2 & El & N)|ents data sched E A NE N|E|data sched E (pre & post & -> & NE & G)]; rewrite E.
  - rewrite (parse_ok ents data sched _ auxv_init A NE) by (auto; lia). eexists _, _. split; [reflexivity|]. rewrite El. apply scan_ehdr_last. exact N.
  - rewrite (parse_ok ents data sched _ auxv_init A NE) by (auto; lia). eexists _, _. split; [reflexivity|]. rewrite scan_ehdr_none by exact N. reflexivity.
  - eexists _, _. split; reflexivity.
  - unfold parse_auxv_contents. cbn [av_parsed auxv_init Z.eqb negb snd parse_loop].
    destruct (read_loop_err data post pre (S (S (S (length (pre ++ RErr :: post))))) (w_buffer w) 0 NE) as (b' & o' & f' & Er); try lia.
    { rewrite app_length. lia. }
    cbn [Z.to_nat skipn] in Er. rewrite Er. cbn [bind]. eexists _, _. split; reflexivity.
Qed.
Lemma offset_dynamic phdrs d : offset_said phdrs d -> vdso_dynamic phdrs = d.
Proof.
  intros [H|[N ->]]; [apply dynamic_ok; auto|]. unfold vdso_dynamic. assert (G : forall x, fold_left (fun d p => if fst p =? PT_DYNAMIC then snd p else d) phdrs x = x); [|apply G].
  induction phdrs as [|[t v] l IH]; intros x; [reflexivity|]. cbn [fold_left fst snd].
  destruct (Z.eqb_spec t PT_DYNAMIC) as [->|]; [elim (N v); left; auto|]. apply IH. intros d' J. apply (N d'). right. auto.
Qed.
Lemma find_none {A} (f : A -> bool) (P : A -> Prop) l : (forall x, f x = true <-> P x) -> (forall x, In x l -> ~ P x) -> find f l = None.
Proof. intros H N. pose proof (find_first f P l H) as K. destruct (find f l) as [m|]; [|auto]. destruct K as (be & af & E & Pm & _). elim (N m); [rewrite E; apply in_or_app; right; left; auto|auto]. Qed.
Lemma find_some {A} (f : A -> bool) (P : A -> Prop) l m : (forall x, f x = true <-> P x) -> first_with P l m -> find f l = Some m.
Proof.
  intros H F. pose proof (find_first f P l H) as K. destruct (find f l) as [m'|]; [f_equal; eapply first_unique; eauto|].
  destruct F as (be & af & E & Pm & _). elim (K m); [rewrite E; apply in_or_app; right; left; auto|auto].
Qed.
Lemma at_offset_test d x : (u64 (vm_addr x + d) =? vm_ld x) = true <-> at_offset d x.
Proof. unfold at_offset. rewrite Z.eqb_eq. unfold u64, two64. change (2 ^ 64) with 18446744073709551616. intuition. Qed.
Lemma maps_answer w r : range_said w r -> accessible (w_line w) 0 4096 -> accessible (w_name w) 0 4096 ->
  get_vdso_from_maps (w_maps w) (w_line w) (w_name w) (w_rmap w) = Ok (match r with Some (b, e) => find (fun m => (b <=? vm_ld m) && (vm_ld m <? e)) (w_rmap w) | None => None end).
Proof.
  intros H AL AN.
  assert (G : forall es data sched, w_maps w = Some (data, sched) -> text_file es data -> steady sched ->
    exists r', found es r' /\ get_vdso_from_maps (w_maps w) (w_line w) (w_name w) (w_rmap w) = Ok (match r' with Some (b, e) => find (fun m => (b <=? vm_ld m) && (vm_ld m <? e)) (w_rmap w) | None => None end)).
  { intros es data sched -> (ls & D & ->) S. unfold get_vdso_from_maps. cbn [fst snd]. set (data := flat_map (fun l => l ++ [10]) ls) in *.
    destruct (maps_loop_text ls es (Datatypes.S (length data + length sched)) (w_line w) (w_name w) sched D S AL AN) as (r' & E & V). { apply text_length in D. unfold data. lia. }
    fold data in E. rewrite E. cbn [bind]. exists r'. split; [auto|]. destruct r' as [[b e]|]; reflexivity. }
  destruct H as [E|es data sched E T S N|es data sched b e n E T S F].
  - rewrite E. unfold get_vdso_from_maps. cbn [fst snd length Nat.add maps_loop]. unfold read_line, BUFFER_LEN. replace (Z.to_nat (4096 - 1)) with (Datatypes.S (Z.to_nat 4094)) by lia.
    generalize (Z.to_nat 4094). intros k. cbn [read_line_loop kread]. destruct (AL 0 ltac:(lia)) as [b Hb]. destruct (st_ok _ 0 b 0 Hb) as (l1 & -> & _). reflexivity.
  - destruct (G es data sched E T S) as (r' & V & ->). destruct r' as [[b e]|]; [|auto]. destruct V as (n & be & af & -> & P & _). elim (N (b, e, n)); [apply in_or_app; right; left; auto|auto].
  - destruct (G es data sched E T S) as (r' & V & ->). destruct r' as [[b' e']|]; cbn in V.
    + destruct V as (n' & V). pose proof (first_unique _ _ _ _ V F) as X. injection X as -> -> _. reflexivity.
    + destruct F as (be & af & -> & P & _). elim (V (b, e, n)); [apply in_or_app; right; left; auto|auto].
Qed.
(** The first call with a library decides, for all later ones, which one is the vdso: the first library with an alias
    name; without one, the first whose dynamic section lies where the vdso's program headers say; failing that, the first
    whose dynamic section lies in the mapping labelled [vdso]; failing that, none. *)
Theorem C53_choice_law : forall w p r calls, taken w r -> zlen (w_buffer w) = 4096 -> accessible (w_line w) 0 4096 -> accessible (w_name w) 0 4096 -> p <> 0 ->
  exists answers, vdso_calls ((w, p) :: calls) vst_init = Ok answers /\
    Forall2 (fun c b => b = true <-> snd c <> 0 /\ exists m, r = Some m /\ snd c = vm_id m) ((w, p) :: calls) answers.
Proof.
  intros w p r calls T LB AL AN N.
  assert (K : forall v a cs, (match r with Some m => v = vm_id m | None => v = 0 end) -> exists bs, vdso_calls cs (mkVst true v a) = Ok bs /\
    Forall2 (fun c b => b = true <-> snd c <> 0 /\ exists m, r = Some m /\ snd c = vm_id m) cs bs).
  { intros v a cs Hv. induction cs as [|[w' p'] cs (bs & E & F)]; cbn [vdso_calls]; [exists []; auto|]. rewrite is_vdso_checked. cbn [bind]. rewrite E. cbn [bind]. eexists. split; [reflexivity|].
    constructor; [|exact F]. cbn [snd]. destruct (Z.eqb_spec p' 0) as [->|Np]; [intuition congruence|]. rewrite Z.eqb_eq. destruct r as [m|]; subst v; [split; [intros ->; eauto|]|split; [contradiction|]].
    - intros (_ & m' & Q & ->). injection Q as ->. auto.
    - intros (_ & m' & Q & _). discriminate Q. }
  assert (G : exists v a, (match r with Some m => v = vm_id m | None => v = 0 end) /\ is_vdso w p vst_init = Ok (mkVst true v a, match r with Some m => p =? vm_id m | None => false end)).
  { unfold is_vdso. destruct (Z.eqb_spec p 0); [lia|]. cbn [vs_checked vst_init vs_auxv vs_vdso]. destruct T as [m F|e d m NA Hs Ne Ho F|e q m NA Hs Ho R F].
    - unfold get_vdso_from_aliases. rewrite (find_some has_alias named_alias _ m has_alias_ok F). eexists _, _. split; [|reflexivity]. auto.
    - rewrite (no_alias_find _ NA). unfold get_vdso_from_auxv. destruct (ehdr_parse w e Hs LB) as (a & c & -> & <-). cbn [bind]. destruct (Z.eqb_spec (av_ehdr a) 0); [contradiction|]. cbn [bind].
      rewrite (offset_dynamic _ _ Ho), (find_some _ (at_offset d) _ m (at_offset_test d) F). eexists _, _. split; [|reflexivity]. auto.
    - rewrite (no_alias_find _ NA). unfold get_vdso_from_auxv. destruct (ehdr_parse w e Hs LB) as (a & c & -> & <-). cbn [bind].
      assert (X : (if av_ehdr a =? 0 then Ok (a, None) else Ok (a, find (fun m => u64 (vm_addr m + vdso_dynamic (w_image w (av_ehdr a))) =? vm_ld m) (w_rmap w))) = Ok (a, None)).
      { destruct (Z.eqb_spec (av_ehdr a) 0); [auto|]. destruct Ho as [Ho|(d & Ho & Nd)]; [contradiction|]. rewrite (offset_dynamic _ _ Ho). rewrite (find_none _ (at_offset d) _ (at_offset_test d) Nd). auto. }
      rewrite X. cbn [bind]. rewrite (maps_answer w q R AL AN). cbn [bind].
      assert (Y : (match q with Some (b, e) => find (fun m => (b <=? vm_ld m) && (vm_ld m <? e)) (w_rmap w) | None => None end) = m).
      { destruct q as [[b e]|].
        - assert (H : forall x, ((b <=? vm_ld x) && (vm_ld x <? e)) = true <-> exists b' e', Some (b, e) = Some (b', e') /\ in_mapping b' e' x).
          { intros x. unfold in_mapping. split; [intros H; exists b, e; split; [auto|lia]|]. intros (b' & e' & Q & H). injection Q as <- <-. lia. }
          destruct m as [m|]; cbn [first_or_none] in F; [exact (find_some _ _ _ m H F)|exact (find_none _ _ _ H F)].
        - destruct m as [m|]; cbn [first_or_none] in F; [|auto]. destruct F as (be & af & _ & (b & e & Q & _) & _). discriminate Q. }
      rewrite Y. destruct m as [m|]; eexists _, _; (split; [|reflexivity]); auto. }
  destruct G as (v & a & Hv & E). cbn [vdso_calls]. rewrite E. cbn [bind]. destruct (K v a calls Hv) as (bs & -> & F). cbn [bind]. eexists. split; [reflexivity|]. constructor; [|exact F].
  cbn [snd]. destruct r as [m|]; [rewrite Z.eqb_eq; split; [eauto|]|split; [discriminate|]].
  - intros (_ & m' & Q & ->). injection Q as ->. auto.
  - intros (_ & m' & Q & _). discriminate Q.
Qed.
Print Assumptions C53_choice_law.
(** The law covers every world whose two files are readable and well formed, or cannot be read at all. *)
Theorem C53_choice_covers : forall w e r, ehdr_said w e -> range_said w r -> exists m, taken w m.
Proof.
  intros w e r He Hr.
  pose proof (find_first has_alias named_alias (w_rmap w) has_alias_ok) as H1. destruct (find has_alias (w_rmap w)) as [m|]; [exists (Some m); apply taken_alias; auto|].
  assert (M : e = 0 \/ (exists d, offset_said (w_image w e) d /\ forall m, In m (w_rmap w) -> ~ at_offset d m) -> exists m, taken w m).
  { intros Ho. destruct r as [[b q]|].
    - pose proof (find_first (fun m => (b <=? vm_ld m) && (vm_ld m <? q)) (fun m => exists b' e', Some (b, q) = Some (b', e') /\ in_mapping b' e' m) (w_rmap w)) as H3.
      exists (find (fun m => (b <=? vm_ld m) && (vm_ld m <? q)) (w_rmap w)). apply (taken_maps w e (Some (b, q))); auto. apply H3.
      intros x. unfold in_mapping. split; [intros H; exists b, q; split; [auto|lia]|]. intros (b' & e' & Q & H). injection Q as <- <-. lia.
    - exists None. apply (taken_maps w e None); auto. intros m _ (b & q & Q & _). discriminate Q. }
  destruct (Z.eq_dec e 0) as [->|Ne]; [apply M; auto|].
  assert (D : exists d, offset_said (w_image w e) d).
  { set (l := w_image w e). clearbody l. clear. induction l as [|x l (d & [(l1 & l2 & -> & N)|[N ->]])] using rev_ind.
    - exists 0. right. split; [intros d' []|auto].
    - destruct x as [t v]. destruct (Z.eq_dec t 2) as [->|Nt].
      + exists v. left. exists (l1 ++ (2, d) :: l2), []. split; [auto|]. intros d' [].
      + exists d. left. exists l1, (l2 ++ [(t, v)]). split; [rewrite <- app_assoc; reflexivity|]. intros d' J. apply in_app_or in J as [J|[J|[]]]; [apply (N d' J)|congruence].
    - destruct x as [t v]. destruct (Z.eq_dec t 2) as [->|Nt].
      + exists v. left. exists l, []. split; [auto|]. intros d' [].
      + exists 0. right. split; [|auto]. intros d' J. apply in_app_or in J as [J|[J|[]]]; [apply (N d' J)|congruence]. }
  destruct D as (d & Ho). pose proof (find_first (fun m => u64 (vm_addr m + d) =? vm_ld m) (at_offset d) (w_rmap w) (at_offset_test d)) as H2.
  destruct (find (fun m => u64 (vm_addr m + d) =? vm_ld m) (w_rmap w)) as [m|]; [exists (Some m); apply (taken_auxv w e d); auto|]. apply M. right. eauto.
Qed.
Print Assumptions C53_choice_covers.

(** *** cases *)
(** a file called "[vdso] x" hides the vdso in maps; the auxiliary vector cannot be opened *)
Definition maps_fake : list Z := flat_map (fun l => l ++ [10]) [line4; line2].
Definition world_fake : world := mkWorld None zeros ex_image (Some (maps_fake, [])) (local 4096) (local 4096) [app; vdso].
Lemma line4_text : text_describes line4 (4194304, 4239360, lit "[vdso] x").
Proof.
  split; [|split; [unfold in_u64, two64; lia|split; [unfold in_u64, two64; lia|vm_compute; discriminate]]].
  exists (lit "00400000"), (lit "0040b000"), (lit "r-xp"), (lit "00000000"), (lit "fe:01"), (lit "1234"), [32].
  split; [hex [0; 0; 4; 0; 0; 0; 0; 0]|]. split; [hex [0; 0; 4; 0; 11; 0; 0; 0]|]. split; [word|]. split; [word|]. split; [word|]. split; [word|].
  split; [repeat constructor|]. split; [|reflexivity]. right. split; [unfold wf_cstr; apply Forall_forall; intros c J; cbn in J; intuition lia|]. split; [cbn; intuition lia|]. split; [|discriminate].
  eexists _, _. split; [reflexivity|]. cbn. intuition lia.
Qed.
Lemma vdso_x : first_word (lit "[vdso] x") (of_string "[vdso]").
Proof. exists (lit " x"). split; [reflexivity|]. split; [repeat constructor; cbn; intuition lia|]. right. eexists _, _. split; [reflexivity|]. cbn. auto. Qed.
Example C54_any_name_ex : maps_text line4 4194304 4239360 (lit "[vdso] x") /\ first_word (lit "[vdso] x") (of_string "[vdso]").
Proof. split; [apply line4_text|apply vdso_x]. Qed.
Example C53_choice_ex : taken world_fake None /\ vdso_calls [(world_fake, 1); (world_fake, 2)] vst_init = Ok [false; false].
Proof.
  split; [|vm_compute; reflexivity]. apply (taken_maps world_fake 0 (Some (4194304, 4239360))).
  - intros m [<-|[<-|[]]] (n & E & J); inversion E; subst; destruct J as [J|[J|[]]]; discriminate J.
  - apply said_closed. reflexivity.
  - auto.
  - apply (range_some _ [(4194304, 4239360, lit "[vdso] x"); (140737353875456, 140737353883648, vdso_label)] maps_fake [] _ _ (lit "[vdso] x")); [reflexivity| |constructor|].
    + exists [line4; line2]. split; [|reflexivity]. apply Forall2_cons; [exact line4_text|]. apply Forall2_cons; [|constructor]. destruct line2_ok as (M & R). split; [apply (maps_line_text _ _ _ _ M)|exact R].
    + exists [], [(140737353875456, 140737353883648, vdso_label)]. split; [auto|]. split; [exact vdso_x|]. intros x [].
  - intros m [<-|[<-|[]]] (b & e & E & J); injection E as <- <-; unfold in_mapping in J; cbn in J; lia.
Qed.
