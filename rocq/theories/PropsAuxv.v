(** The auxiliary vector, the vdso and /proc/self/maps: properties C47, C52, C53, C54. *)
From Verif Require Import Base ListFacts LibcModel SpecLibc LibcProofs LibcProofs2 LibcProofs3 PropsLibc AuxvModel SpecAuxv AuxvProofs AuxvProofs2.
From Coq Require String.
Import String.StringSyntax.
Open Scope string_scope.
Open Scope list_scope.
Open Scope Z_scope.

(** *** C47: what ulong_to_hexstr prints, read_hex reads *)
Theorem C47_read_back : forall m num str strlen upper s, 0 <= num < two64 -> hexadecimal upper num s -> accessible m str strlen ->
  fits_in num strlen s -> exists m', ulong_to_hexstr m num str strlen upper = Ok (m', zlen s) /\ read_hex m' str = Ok (num, zlen s).
Proof.
  intros m num str strlen upper s N H A F. destruct (proj1 (C47_hex m num str strlen upper s N H A) F) as (m' & E & S & _).
  exists m'. split; [auto|]. destruct S as [_ S]. apply bytes_at_app in S as [S1 S2]. destruct S2 as [S2 _].
  destruct H as (ds & (D & Nu & C) & ->). rewrite (read_hex_ok m' str (map (hex_char upper) ds) num 0); auto; [now rewrite u64_id|].
  exists upper, ds. split; [auto|]. split; [|auto]. destruct C as [->|(d & r & -> & _)]; discriminate.
Qed.
Print Assumptions C47_read_back.
(** The reader accepts leading zeros and stops at any other character; more than 16 digits wrap. *)
Theorem C47_read : forall m p s v c, hex_text s v -> bytes_at m p s -> holds m (p + zlen s) c ->
  ~ (48 <= c <= 57 \/ 97 <= c <= 102 \/ 65 <= c <= 70) -> read_hex m p = Ok (v mod 2 ^ 64, zlen s).
Proof. intros m p s v c T B H N. apply (read_hex_ok m p s v c T B H). unfold hex_digit_char. lia. Qed.
Print Assumptions C47_read.
Example C47_read_ex : read_hex (literal (lit "7fFe-7")) 0 = Ok (32766, 4).
Proof. reflexivity. Qed.

(** *** C52 *)
(** For every auxiliary vector that fits the buffer and every way in which read delivers it, the first and all
    later calls (whatever the file contains by then) give the AT_PAGESZ value. *)
Theorem C52_pagesize : forall ents data sched buffer v later, auxv_content ents data -> no_error sched -> zlen buffer = 4096 ->
  last_entry ents 6 v -> 0 < v < two32 ->
  pagesize_calls ((Some (data, sched), buffer) :: later) (auxv_init, 0) = Ok (v :: map (fun _ => v) later).
Proof.
  intros ents data sched buffer v later A NE LB (l1 & l2 & E & N) V. cbn [pagesize_calls gotcha_getpagesize Z.eqb negb]. unfold get_auxv_pagesize.
  rewrite (parse_ok ents data sched buffer auxv_init A NE) by (auto; lia). cbn [bind Z.eqb].
  rewrite E, scan_pagesz_last, u32_s32 by (auto; lia). destruct (Z.eqb_spec v 0); [lia|]. rewrite pagesize_same by auto. reflexivity.
Qed.
Print Assumptions C52_pagesize.
(** No entry: 4096. *)
Theorem C52_no_entry : forall ents data sched buffer later, auxv_content ents data -> no_error sched -> zlen buffer = 4096 -> no_entry ents 6 ->
  pagesize_calls ((Some (data, sched), buffer) :: later) (auxv_init, 0) = Ok (4096 :: map (fun _ => 4096) later).
Proof.
  intros ents data sched buffer later A NE LB N. cbn [pagesize_calls gotcha_getpagesize Z.eqb negb]. unfold get_auxv_pagesize.
  rewrite (parse_ok ents data sched buffer auxv_init A NE) by (auto; lia). cbn [bind Z.eqb].
  rewrite scan_pagesz_none by auto. cbn [av_pagesz auxv_init Z.eqb]. rewrite pagesize_same by lia. reflexivity.
Qed.
Print Assumptions C52_no_entry.
(** The file cannot be opened, or a read fails before its end: 4096. *)
Theorem C52_unreadable : forall f buffer later, (f = None \/ exists data sched, f = Some (data, sched) /\ fails data sched) -> zlen buffer = 4096 ->
  pagesize_calls ((f, buffer) :: later) (auxv_init, 0) = Ok (4096 :: map (fun _ => 4096) later).
Proof.
  intros f buffer later H LB. cbn [pagesize_calls gotcha_getpagesize Z.eqb negb]. unfold get_auxv_pagesize.
  assert (E : exists a, parse_auxv_contents f buffer auxv_init = Ok (a, -1)).
  { unfold parse_auxv_contents. cbn [av_parsed auxv_init Z.eqb negb]. destruct H as [->|(data & sched & -> & pre & post & -> & NE & G)]; [eauto|].
    cbn [snd parse_loop]. destruct (read_loop_err data post pre (S (S (S (length (pre ++ RErr :: post))))) buffer 0 NE) as (b' & o' & f' & E); try lia.
    { rewrite app_length. lia. }
    cbn [Z.to_nat skipn] in E. rewrite E. cbn [bind]. eauto. }
  destruct E as (a & ->). cbn [bind Z.eqb Pos.eqb]. rewrite pagesize_same by lia. reflexivity.
Qed.
Print Assumptions C52_unreadable.
(** Whatever the file contains, the outcome of the first call is final: later calls return the same code and page
    size and change nothing. *)
Lemma scan_parsed fuel : forall buffer i a a', scan fuel buffer i a = Ok a' -> av_parsed a' = av_parsed a.
Proof.
  induction fuel as [|g IH]; intros buffer i a a' E; cbn [scan] in E; [discriminate E|]. destruct (word buffer i) as [t|]; cbn [bind] in E; [|discriminate E].
  destruct (t =? AT_NULL); [injection E as <-; auto|]. destruct (t =? AT_SYSINFO_EHDR); [destruct (word buffer (i + 8)); cbn [bind] in E; [|discriminate E]; apply IH in E; auto|].
  destruct (t =? AT_PAGESZ); [destruct (word buffer (i + 8)); cbn [bind] in E; [|discriminate E]; apply IH in E; auto|]. apply IH in E. auto.
Qed.
Lemma parse_loop_parsed fuel : forall buffer offset f a a' r, parse_loop fuel buffer offset f a = Ok (a', r) -> r = 0 /\ av_parsed a' = av_parsed a \/ r = -1 /\ av_parsed a' = -1.
Proof.
  induction fuel as [|g IH]; intros buffer offset f a a' r E; cbn [parse_loop] in E; [discriminate E|].
  destruct (read_loop _ buffer offset f) as [[[[b o] q] f']|]; cbn [bind] in E; [|discriminate E]. destruct q as [fin|]; [|injection E as <- <-; auto].
  destruct (scan (S (length b)) b 0 a) as [a1|] eqn:Es; cbn [bind] in E; [|discriminate E]. apply scan_parsed in Es. destruct fin; [injection E as <- <-; auto|]. apply IH in E. rewrite Es in E. auto.
Qed.
Theorem C52_final : forall f buffer a r, parse_auxv_contents f buffer auxv_init = Ok (a, r) ->
  (r = 0 \/ r = -1) /\ (f = None -> r = -1) /\ forall f' buffer', parse_auxv_contents f' buffer' a = Ok (a, r) /\ get_auxv_pagesize f' buffer' a = Ok (a, if r =? 0 then av_pagesz a else 0).
Proof.
  intros f buffer a r E. unfold parse_auxv_contents in E. cbn [av_parsed auxv_init Z.eqb negb] in E.
  assert (X : (r = 0 /\ av_parsed a = 1 \/ r = -1 /\ av_parsed a = -1) /\ (f = None -> r = -1)).
  { destruct f as [f|]; [|injection E as <- <-; auto]. split; [|discriminate]. apply parse_loop_parsed in E. auto. }
  destruct X as [X Y]. split; [tauto|]. split; [auto|]. intros f' buffer'. unfold get_auxv_pagesize, parse_auxv_contents. destruct X as [[-> X]|[-> X]]; rewrite X; cbn; auto.
Qed.
Print Assumptions C52_final.
(** Cases: an auxiliary vector read in three pieces with an interruption; one whose second read fails. *)
Definition ex_ents : list entry := [(33, 140737354129408); (6, 65536); (17, 100)].
Definition ex_auxv : list Z := flat_map enc_entry ex_ents ++ enc 8 0 ++ enc 8 0.
Definition zeros : list Z := repeat 0 (64 * 64).
Example C52_ex : auxv_content ex_ents ex_auxv /\ no_error [RGive 9; RIntr; RGive 20] /\ last_entry ex_ents AT_PAGESZ 65536 /\
  pagesize_calls [(Some (ex_auxv, [RGive 9; RIntr; RGive 20]), zeros); (None, zeros)] (auxv_init, 0) = Ok [65536; 65536] /\
  fails ex_auxv [RGive 9; RErr] /\ pagesize_calls [(Some (ex_auxv, [RGive 9; RErr]), zeros); (Some (ex_auxv, []), zeros)] (auxv_init, 0) = Ok [4096; 4096].
Proof.
  split; [|split; [|split; [|split; [|split]]]].
  - split; [repeat constructor; unfold two64; cbn; lia|]. split; [eexists; reflexivity|cbn; lia].
  - intros [J|[J|[J|[]]]]; discriminate J.
  - exists [(33, 140737354129408)], [(17, 100)]. split; [auto|]. intros w [J|[]]. discriminate J.
  - vm_compute. reflexivity.
  - exists [RGive 9], []. split; [auto|]. split; [|vm_compute; reflexivity]. intros [J|[]]; discriminate J.
  - vm_compute. reflexivity.
Qed.
Example C52_final_ex : (exists a, parse_auxv_contents (Some (ex_auxv, [RGive 9; RErr])) zeros auxv_init = Ok (a, -1)) /\ exists a, parse_auxv_contents (Some (ex_auxv, [])) zeros auxv_init = Ok (a, 0) /\ av_pagesz a = 65536.
Proof. split; eexists; vm_compute; split || idtac; reflexivity. Qed.
(** Beyond the quantifier: a longer auxiliary vector makes the scan run out of the buffer. *)
Definition long_auxv : list Z := flat_map enc_entry (repeat (17, 1) (Z.to_nat 257)) ++ enc 8 0 ++ enc 8 0.
Theorem C52_long_refuted : exists data sched buffer, no_error sched /\ zlen buffer = 4096 /\ Forall (fun b => 0 <= b < 256) data /\
  pagesize_calls [(Some (data, sched), buffer)] (auxv_init, 0) = Fault OutOfBounds.
Proof.
  exists long_auxv, [], zeros. split; [intros []|]. split; [reflexivity|]. split; [|vm_compute; reflexivity].
  apply Forall_forall. intros b J. assert (H : forallb (fun b => (0 <=? b) && (b <? 256)) long_auxv = true) by (vm_compute; reflexivity).
  rewrite forallb_forall in H. specialize (H b J). lia.
Qed.
Print Assumptions C52_long_refuted.

(** *** C53 *)
(** Over any sequence of calls, whatever the link maps and files are at each of them, one pointer at most is
    answered with yes, always; NULL never. *)
Lemma is_vdso_checked w p v a : is_vdso w p (mkVst true v a) = Ok (mkVst true v a, if p =? 0 then false else p =? v).
Proof. unfold is_vdso. destruct (p =? 0); reflexivity. Qed.
Lemma checked_calls v a : forall calls answers, vdso_calls calls (mkVst true v a) = Ok answers -> Forall2 (fun c b => b = true <-> snd c = v /\ snd c <> 0) calls answers.
Proof.
  induction calls as [|[w p] calls IH]; intros answers E; cbn [vdso_calls] in E.
  - inversion E. constructor.
  - rewrite is_vdso_checked in E. cbn [bind] in E. destruct (vdso_calls calls (mkVst true v a)) as [bs|]; cbn [bind] in E; [|discriminate E]. injection E as <-.
    constructor; [|apply IH; auto]. cbn [snd]. destruct (Z.eqb_spec p 0); [intuition congruence|]. rewrite Z.eqb_eq. intuition.
Qed.
Lemma is_vdso_first w p s s' b : p <> 0 -> vs_checked s = false -> vs_vdso s = 0 -> is_vdso w p s = Ok (s', b) -> vs_checked s' = true /\ (b = true <-> p = vs_vdso s' /\ p <> 0).
Proof.
  intros N C V. unfold is_vdso. destruct (Z.eqb_spec p 0); [lia|]. rewrite C. destruct (get_vdso_from_aliases (w_rmap w)) as [m|].
  { intros E; inversion E; subst; cbn. rewrite Z.eqb_eq. intuition. }
  destruct (get_vdso_from_auxv _ _ _ _ _) as [[a [m|]]|]; cbn [bind]; [| |discriminate].
  { intros E; inversion E; subst; cbn. rewrite Z.eqb_eq. intuition. }
  destruct (get_vdso_from_maps _ _ _ _) as [[m|]|]; cbn [bind]; [| |discriminate]; intros E; inversion E; subst; cbn; [rewrite Z.eqb_eq; intuition|].
  rewrite V. split; [auto|]. intuition congruence.
Qed.
Theorem C53_at_most_one : forall calls answers, vdso_calls calls vst_init = Ok answers ->
  exists v, Forall2 (fun c b => b = true <-> snd c = v /\ snd c <> 0) calls answers.
Proof.
  assert (G : forall calls answers s, vs_checked s = false -> vs_vdso s = 0 -> vdso_calls calls s = Ok answers ->
    exists v, Forall2 (fun c b => b = true <-> snd c = v /\ snd c <> 0) calls answers).
  { induction calls as [|[w p] calls IH]; intros answers s C V E; cbn [vdso_calls] in E.
    - inversion E. exists 0. constructor.
    - destruct (is_vdso w p s) as [[s' b]|] eqn:Ei; cbn [bind] in E; [|discriminate E].
      destruct (vdso_calls calls s') as [bs|] eqn:Eb; cbn [bind] in E; inversion E; subst. destruct (Z.eq_dec p 0) as [->|N].
      + cbn in Ei. inversion Ei; subst. destruct (IH _ _ C V Eb) as (v & F). exists v. constructor; [cbn; intuition congruence|auto].
      + destruct (is_vdso_first _ _ _ _ _ N C V Ei) as [C' B]. destruct s' as [ck v a]. cbn in C', B. subst ck. exists v. constructor; [exact B|]. eapply checked_calls; eauto. }
  intros calls answers E. eapply G; eauto; reflexivity.
Qed.
Print Assumptions C53_at_most_one.

(** Which library it is.  First choice: the first one with an alias name. *)
Theorem C53_alias_partial : forall w p vd, first_with named_alias (w_rmap w) vd -> p <> 0 ->
  exists s, is_vdso w p vst_init = Ok (s, p =? vm_id vd).
Proof.
  intros w p vd F N. unfold is_vdso. destruct (Z.eqb_spec p 0); [lia|]. cbn [vs_checked vst_init]. unfold get_vdso_from_aliases.
  pose proof (find_first has_alias named_alias (w_rmap w) has_alias_ok) as H. destruct (find has_alias (w_rmap w)) as [m|].
  - rewrite (first_unique _ _ _ _ H F). eauto.
  - destruct F as (be & af & E & P & _). elim (H vd); [|auto]. rewrite E. apply in_app_iff. right. left. auto.
Qed.
Print Assumptions C53_alias_partial.

(** Second choice: the first library whose dynamic section lies at the offset that the program headers of the
    vdso, found through AT_SYSINFO_EHDR, give.  If the vdso is the only library with this offset it is recognised.
    Missing: earlier libraries may have the same offset; see the refutation. *)
Lemma dynamic_ok phdrs d : dynamic_offset phdrs d -> vdso_dynamic phdrs = d.
Proof.
  intros (l1 & l2 & -> & N). unfold vdso_dynamic. rewrite fold_left_app. cbn [fold_left fst snd]. rewrite Z.eqb_refl.
  assert (H : forall x, fold_left (fun d p => if fst p =? PT_DYNAMIC then snd p else d) l2 x = x); [|apply H].
  induction l2 as [|[t v] l2 IH]; intros x; [reflexivity|]. cbn [fold_left fst snd]. destruct (Z.eqb_spec t PT_DYNAMIC) as [->|]; [elim (N v); left; auto|]. apply IH. intros d' J. apply (N d'). right. auto.
Qed.
Lemma no_alias_find r : (forall m, In m r -> ~ named_alias m) -> get_vdso_from_aliases r = None.
Proof.
  intros N. unfold get_vdso_from_aliases. pose proof (find_first has_alias named_alias r has_alias_ok) as H. destruct (find has_alias r) as [m|]; [|auto].
  destruct H as (be & af & -> & P & _). elim (N m); [|auto]. apply in_app_iff. right. left. auto.
Qed.
Theorem C53_auxv_partial : forall w p vd ents data sched ehdr d,
  w_auxv w = Some (data, sched) -> auxv_content ents data -> no_error sched -> zlen (w_buffer w) = 4096 ->
  last_entry ents 33 ehdr -> ehdr <> 0 -> dynamic_offset (w_image w ehdr) d ->
  (forall m, In m (w_rmap w) -> ~ named_alias m) -> first_with (at_offset d) (w_rmap w) vd -> p <> 0 ->
  exists s, is_vdso w p vst_init = Ok (s, p =? vm_id vd).
Proof.
  intros w p vd ents data sched ehdr d Ea A NE LB (l1 & l2 & Ee & Nl) He D NA F N. unfold is_vdso. destruct (Z.eqb_spec p 0); [lia|]. cbn [vs_checked vst_init vs_auxv].
  rewrite (no_alias_find _ NA). unfold get_vdso_from_auxv. rewrite Ea, (parse_ok ents data sched _ auxv_init A NE) by (auto; lia). cbn [bind].
  rewrite Ee, scan_ehdr_last by auto. destruct (Z.eqb_spec ehdr 0); [lia|]. cbn [bind].
  rewrite (dynamic_ok _ _ D).
  pose proof (find_first (fun m => u64 (vm_addr m + d) =? vm_ld m) (at_offset d) (w_rmap w)) as H.
  destruct (find (fun m => u64 (vm_addr m + d) =? vm_ld m) (w_rmap w)) as [m|].
  - rewrite (first_unique (at_offset d) (w_rmap w) m vd); [eauto| |auto]. apply H. intros x. unfold at_offset. rewrite Z.eqb_eq. unfold u64, two64. change (2 ^ 64) with 18446744073709551616. intuition.
  - destruct F as (be & af & E & P & _). elim (H) with (x := vd); [|rewrite E; apply in_app_iff; right; left; auto|auto]. intros x. unfold at_offset. rewrite Z.eqb_eq. unfold u64, two64. change (2 ^ 64) with 18446744073709551616. intuition.
Qed.
Print Assumptions C53_auxv_partial.

(** Third choice, if the auxiliary vector has no AT_SYSINFO_EHDR: the first library whose dynamic section lies in
    the mapping named [vdso]; no library if there is none. *)
Lemma third_choice w es mdata msched ents data sched p : p <> 0 ->
  w_auxv w = Some (data, sched) -> auxv_content ents data -> no_error sched -> zlen (w_buffer w) = 4096 -> no_entry ents AT_SYSINFO_EHDR ->
  w_maps w = Some (mdata, msched) -> maps_file es mdata -> steady msched -> accessible (w_line w) 0 4096 -> accessible (w_name w) 0 4096 ->
  (forall m, In m (w_rmap w) -> ~ named_alias m) ->
  exists r, vdso_range es r /\
    exists s, is_vdso w p vst_init = Ok (s, match r with Some (b, e) => match find (fun m => (b <=? vm_ld m) && (vm_ld m <? e)) (w_rmap w) with Some m => p =? vm_id m | None => false end | None => false end).
Proof.
  intros N Ea A NE LB NoE Em (ls & Dl & ->) St AL AN NA. unfold is_vdso. destruct (Z.eqb_spec p 0); [lia|]. cbn [vs_checked vst_init vs_auxv vs_vdso].
  rewrite (no_alias_find _ NA). unfold get_vdso_from_auxv. rewrite Ea, (parse_ok ents data sched _ auxv_init A NE) by (auto; lia). cbn [bind].
  rewrite scan_ehdr_none by auto. cbn [av_ehdr auxv_init Z.eqb bind]. unfold get_vdso_from_maps. rewrite Em.
  set (data1 := flat_map (fun l => l ++ [10]) ls) in *. cbn [fst snd].
  destruct (maps_loop_ok ls es (S (length data1 + length msched)) (w_line w) (w_name w) msched Dl St AL AN) as (r & E & V). { apply describes_length in Dl. unfold data1. lia. }
  fold data1 in E. rewrite E. cbn [bind]. exists r. split; [auto|]. destruct r as [[b e]|]; cbn [bind]; [|eauto].
  destruct (find _ (w_rmap w)); cbn [bind]; eauto.
Qed.
Theorem C53_maps_partial : forall w p vd es mdata msched ents data sched b e,
  w_auxv w = Some (data, sched) -> auxv_content ents data -> no_error sched -> zlen (w_buffer w) = 4096 -> no_entry ents 33 ->
  w_maps w = Some (mdata, msched) -> maps_file es mdata -> steady msched -> accessible (w_line w) 0 4096 -> accessible (w_name w) 0 4096 ->
  (forall m, In m (w_rmap w) -> ~ named_alias m) ->
  first_with (fun x => snd x = vdso_label) es (b, e, vdso_label) -> first_with (in_mapping b e) (w_rmap w) vd -> p <> 0 ->
  exists s, is_vdso w p vst_init = Ok (s, p =? vm_id vd).
Proof.
  intros w p vd es mdata msched ents data sched b e Ea A NE LB NoE Em M St AL AN NA FM F N.
  destruct (third_choice w es mdata msched ents data sched p N Ea A NE LB NoE Em M St AL AN NA) as (r & V & s & E).
  destruct r as [[b' e']|].
  - cbn in V. pose proof (first_unique _ _ _ _ V FM) as X. inversion X; subst. clear X.
    pose proof (find_first (fun m => (b <=? vm_ld m) && (vm_ld m <? e)) (in_mapping b e) (w_rmap w)) as H.
    destruct (find (fun m => (b <=? vm_ld m) && (vm_ld m <? e)) (w_rmap w)) as [m|].
    + rewrite (first_unique (in_mapping b e) (w_rmap w) m vd) in E; [eauto| |auto]. apply H. intros x. unfold in_mapping. lia.
    + destruct F as (be & af & Er & P & _). elim H with (x := vd); [unfold in_mapping; intros; lia|rewrite Er; apply in_app_iff; right; left; auto|auto].
  - cbn in V. destruct FM as (be & af & -> & _). elim (V (b, e, vdso_label)); [apply in_app_iff; right; left; auto|reflexivity].
Qed.
Print Assumptions C53_maps_partial.
Theorem C53_none : forall w p es mdata msched ents data sched,
  w_auxv w = Some (data, sched) -> auxv_content ents data -> no_error sched -> zlen (w_buffer w) = 4096 -> no_entry ents 33 ->
  w_maps w = Some (mdata, msched) -> maps_file es mdata -> steady msched -> accessible (w_line w) 0 4096 -> accessible (w_name w) 0 4096 ->
  (forall m, In m (w_rmap w) -> ~ named_alias m) -> (forall x, In x es -> snd x <> vdso_label) ->
  exists s, is_vdso w p vst_init = Ok (s, false).
Proof.
  intros w p es mdata msched ents data sched Ea A NE LB NoE Em M St AL AN NA NM. destruct (Z.eq_dec p 0) as [->|N]; [exists vst_init; reflexivity|].
  destruct (third_choice w es mdata msched ents data sched p N Ea A NE LB NoE Em M St AL AN NA) as (r & V & s & E).
  destruct r as [[b e]|]; [|eauto]. cbn in V. destruct V as (be & af & -> & _). elim (NM (b, e, vdso_label)); [apply in_app_iff; right; left; auto|reflexivity].
Qed.
Print Assumptions C53_none.

(** Cases and the refutation: the vdso at 0x7ffff7fc0000 with its dynamic section at offset 0x3e0; a library
    loaded before it whose dynamic section happens to have the same offset is taken for the vdso, and the vdso is
    not. *)
Definition ex_image (e : Z) : list (Z * Z) := if e =? 140737353875456 then [(1, 0); (2, 992); (4, 1336)] else [].
Definition ex_auxv2 : list Z := flat_map enc_entry [(33, 140737353875456); (6, 4096)] ++ enc 8 0 ++ enc 8 0.
Definition app : vmap := mkVmap 1 (Some []) 93824992231424 (93824992231424 + 15768).
Definition vdso : vmap := mkVmap 2 (Some []) 140737353875456 (140737353875456 + 992).
Definition libx : vmap := mkVmap 3 (Some (lit "/lib/libx.so")) 140737351520256 (140737351520256 + 992).
Definition ex_world (r : list vmap) : world := mkWorld (Some (ex_auxv2, [])) zeros ex_image None (local 4096) (local 4096) r.
Example C53_auxv_ex : auxv_content [(33, 140737353875456); (6, 4096)] ex_auxv2 /\ last_entry [(33, 140737353875456); (6, 4096)] AT_SYSINFO_EHDR 140737353875456 /\
  dynamic_offset (ex_image 140737353875456) 992 /\ (forall m, In m [app; vdso] -> ~ named_alias m) /\ first_with (at_offset 992) [app; vdso] vdso /\
  vdso_calls [(ex_world [app; vdso], 1); (ex_world [app; vdso], 2); (ex_world [app; vdso; libx], 3); (ex_world [], 0); (ex_world [], 2)] vst_init = Ok [false; true; false; false; true].
Proof.
  split; [|split; [|split; [|split; [|split]]]].
  - split; [repeat constructor; unfold two64; cbn; lia|]. split; [eexists; reflexivity|cbn; lia].
  - exists [], [(6, 4096)]. split; [auto|]. intros w [J|[]]. discriminate J.
  - exists [(1, 0)], [(4, 1336)]. split; [auto|]. intros w [J|[]]. discriminate J.
  - intros m [<-|[<-|[]]] (n & E & J); inversion E; subst; destruct J as [J|[J|[]]]; discriminate J.
  - exists [app], []. split; [auto|]. split; [reflexivity|]. intros x [<-|[]]. unfold at_offset. vm_compute. discriminate.
  - vm_compute. reflexivity.
Qed.
Theorem C53_refuted : exists w vd other ehdr, In vd (w_rmap w) /\ In other (w_rmap w) /\ vm_id vd <> vm_id other /\ vm_addr vd = ehdr /\ vm_addr other <> ehdr /\
  (exists ents data, w_auxv w = Some (data, []) /\ auxv_content ents data /\ last_entry ents AT_SYSINFO_EHDR ehdr) /\
  vdso_calls [(w, vm_id vd); (w, vm_id other)] vst_init = Ok [false; true].
Proof.
  exists (ex_world [app; libx; vdso]), vdso, libx, 140737353875456. split; [cbn; auto|]. split; [cbn; auto|]. split; [cbn; lia|]. split; [reflexivity|]. split; [cbn; lia|]. split.
  - exists [(33, 140737353875456); (6, 4096)], ex_auxv2. split; [reflexivity|]. split; apply C53_auxv_ex.
  - vm_compute. reflexivity.
Qed.
Print Assumptions C53_refuted.
(** ... and so is any library with the name of an alias *)
Definition fake : vmap := mkVmap 4 (Some (lit "linux-vdso.so")) 140737351520256 (140737351520256 + 4096).
Theorem C53_name_refuted : exists w vd other ehdr, In vd (w_rmap w) /\ In other (w_rmap w) /\ vm_id vd <> vm_id other /\ vm_addr vd = ehdr /\ vm_addr other <> ehdr /\
  (exists ents data, w_auxv w = Some (data, []) /\ auxv_content ents data /\ last_entry ents AT_SYSINFO_EHDR ehdr) /\
  vdso_calls [(w, vm_id vd); (w, vm_id other)] vst_init = Ok [false; true].
Proof.
  exists (ex_world [app; vdso; fake]), vdso, fake, 140737353875456. split; [cbn; auto|]. split; [cbn; auto|]. split; [cbn; lia|]. split; [reflexivity|]. split; [cbn; lia|]. split.
  - exists [(33, 140737353875456); (6, 4096)], ex_auxv2. split; [reflexivity|]. split; apply C53_auxv_ex.
  - vm_compute. reflexivity.
Qed.
Print Assumptions C53_name_refuted.
Example C53_alias_ex : first_with named_alias [app; fake] fake.
Proof.
  exists [app], []. split; [auto|]. split; [exists (lit "linux-vdso.so"); split; [reflexivity|left; reflexivity]|].
  intros x [<-|[]] (n & E & J). inversion E; subst. destruct J as [J|[J|[]]]; discriminate J.
Qed.

(** *** C54 *)
(** A well-formed line whose name contains no white space is parsed exactly: the name is stored and the line is
    taken for that of the vdso if and only if its name is [vdso], with its begin and end.
    Missing: names with white space; see the refutation. *)
Theorem C54_line_partial : forall l b e name line buf,
  maps_line l b e name -> in_u64 b -> in_u64 e -> bytes_at line 0 (l ++ [10; 0]) -> zlen l <= 4094 -> accessible buf 0 4096 ->
  exists buf', parse_maps_line line buf = Ok (buf', if cstr_eq_dec name vdso_label then Some (b, e) else None) /\ str_at buf' 0 name.
Proof. intros l b e name line buf M Ib Ie B L A. destruct (parse_maps_line_ok l b e name line buf M Ib Ie B L A) as (b' & E & _ & S). eauto. Qed.
Print Assumptions C54_line_partial.
(** The reader of lines: a line that fits, whatever the array contained and whatever follows. *)
Theorem C54_read_line_partial : forall l rest sched line, wf_cstr l -> ~ In 10 l -> zlen l <= 4094 -> steady sched -> accessible line 0 4096 ->
  exists line' sched', read_line line 4096 (l ++ 10 :: rest, sched) = Ok (line', 0, (rest, sched')) /\ steady sched' /\ bytes_at line' 0 (l ++ [10; 0]) /\ same_but line line' 0 (zlen l + 2).
Proof.
  intros l rest sched line W N L S A. destruct (read_line_loop_ok 4096 rest l (Z.to_nat (4096 - 1)) line 0 sched W N S A) as (l' & s' & E & S' & B & SB & _); try lia. eauto 8.
Qed.
Print Assumptions C54_read_line_partial.
(** The search finds the first mapping named [vdso], or none if there is none, in every file of well-formed lines
    that is read without interruption. *)
Theorem C54_search_partial : forall es data sched line name r_map, maps_file es data -> steady sched -> accessible line 0 4096 -> accessible name 0 4096 ->
  exists r, get_vdso_from_maps (Some (data, sched)) line name r_map = Ok r /\
    ((forall x, In x es -> snd x <> vdso_label) -> r = None) /\
    (forall b e, first_with (fun x => snd x = vdso_label) es (b, e, vdso_label) ->
       (forall m, r = Some m <-> first_with (in_mapping b e) r_map m) /\ (r = None <-> forall m, In m r_map -> ~ in_mapping b e m)).
Proof.
  intros es data sched line name r_map (ls & Dl & ->) St AL AN. unfold get_vdso_from_maps. cbn [fst snd].
  set (data := flat_map (fun l => l ++ [10]) ls) in *.
  destruct (maps_loop_ok ls es (S (length data + length sched)) line name sched Dl St AL AN) as (r & E & V). { apply describes_length in Dl. unfold data. lia. }
  fold data in E. rewrite E. cbn [bind]. destruct r as [[b e]|].
  - eexists. split; [reflexivity|]. split.
    + cbn in V. destruct V as (be & af & -> & _). intros N. elim (N (b, e, vdso_label)); [apply in_app_iff; right; left; auto|reflexivity].
    + intros b' e' F. pose proof (first_unique _ _ _ _ V F) as X. inversion X; subst b' e'.
      pose proof (find_first (fun m => (b <=? vm_ld m) && (vm_ld m <? e)) (in_mapping b e) r_map) as H.
      specialize (H ltac:(unfold in_mapping; intros; lia)). destruct (find (fun m => (b <=? vm_ld m) && (vm_ld m <? e)) r_map) as [m|]; split.
      * intros m'. split; [intros E'; inversion E'; subst; auto|]. intros H'. f_equal. eapply first_unique; eauto.
      * split; [discriminate|]. intros K. destruct H as (be & af & -> & P & _). elim (K m); [apply in_app_iff; right; left; auto|auto].
      * intros m. split; [discriminate|]. intros (be & af & -> & P & _). elim (H m); [apply in_app_iff; right; left; auto|auto].
      * split; auto.
  - exists None. split; [auto|]. split; [auto|]. intros b e (be & af & -> & _). cbn in V. elim (V (b, e, vdso_label)); [apply in_app_iff; right; left; auto|reflexivity].
Qed.
Print Assumptions C54_search_partial.

(** a case: two lines *)
Definition line1 : cstr := lit "00400000-0040b000 r-xp 00000000 fe:01 1234   /bin/cat".
Definition line2 : cstr := lit "7ffff7fc0000-7ffff7fc2000 r-xp 00000000 00:00 0 [vdso]".
Definition line3 : cstr := lit "7ffff7ff0000-7ffff7ff2000 rw-p 00000000 00:00 0 ".
Lemma plain_wordb_ok s : match s with [] => false | _ => forallb (fun c => (1 <=? c) && (c <=? 255) && negb (is_space c)) s end = true -> plain_word s.
Proof.
  intros H. assert (N : s <> []) by (intros ->; discriminate H). assert (K : forallb (fun c => (1 <=? c) && (c <=? 255) && negb (is_space c)) s = true) by (destruct s; [congruence|auto]).
  rewrite forallb_forall in K. split; [|split; [auto|]]; apply Forall_forall; intros c J; specialize (K c J); apply andb_prop in K as [K1 K2]; [lia|]. apply negb_true_iff in K2. intros [<-|[<-|[<-|[]]]]; discriminate K2.
Qed.
Ltac word := apply plain_wordb_ok; vm_compute; reflexivity.
Ltac hex ds := exists false, ds; split; [repeat constructor; lia|split; [discriminate|split; [vm_compute; reflexivity|vm_compute; reflexivity]]].
Lemma line1_ok : describes line1 (4194304, 4239360, lit "/bin/cat").
Proof.
  split; [|split; [unfold in_u64, two64; lia|split; [unfold in_u64, two64; lia|vm_compute; discriminate]]].
  exists (lit "00400000"), (lit "0040b000"), (lit "r-xp"), (lit "00000000"), (lit "fe:01"), (lit "1234"), [32; 32; 32].
  split; [hex [0; 0; 4; 0; 0; 0; 0; 0]|]. split; [hex [0; 0; 4; 0; 11; 0; 0; 0]|]. split; [word|]. split; [word|]. split; [word|]. split; [word|].
  split; [repeat constructor|]. split; [right; split; [word|discriminate]|reflexivity].
Qed.
Lemma line2_ok : describes line2 (140737353875456, 140737353883648, vdso_label).
Proof.
  split; [|split; [unfold in_u64, two64; lia|split; [unfold in_u64, two64; lia|vm_compute; discriminate]]].
  exists (lit "7ffff7fc0000"), (lit "7ffff7fc2000"), (lit "r-xp"), (lit "00000000"), (lit "00:00"), (lit "0"), [32].
  split; [hex [7; 15; 15; 15; 15; 7; 15; 12; 0; 0; 0; 0]|]. split; [hex [7; 15; 15; 15; 15; 7; 15; 12; 2; 0; 0; 0]|]. split; [word|]. split; [word|]. split; [word|]. split; [word|].
  split; [repeat constructor|]. split; [right; split; [word|discriminate]|reflexivity].
Qed.
Lemma line3_ok : describes line3 (140737354072064, 140737354080256, []).
Proof.
  split; [|split; [unfold in_u64, two64; lia|split; [unfold in_u64, two64; lia|vm_compute; discriminate]]].
  exists (lit "7ffff7ff0000"), (lit "7ffff7ff2000"), (lit "rw-p"), (lit "00000000"), (lit "00:00"), (lit "0"), [32].
  split; [hex [7; 15; 15; 15; 15; 7; 15; 15; 0; 0; 0; 0]|]. split; [hex [7; 15; 15; 15; 15; 7; 15; 15; 2; 0; 0; 0]|]. split; [word|]. split; [word|]. split; [word|]. split; [word|].
  split; [repeat constructor|]. split; [left; reflexivity|reflexivity].
Qed.
Definition ex_maps : list Z := flat_map (fun l => l ++ [10]) [line1; line3; line2].
Definition ex_es : list mapping := [(4194304, 4239360, lit "/bin/cat"); (140737354072064, 140737354080256, []); (140737353875456, 140737353883648, vdso_label)].
Notation run_maps sched := (get_vdso_from_maps (Some (ex_maps, sched)) (local 4096) (local 4096) [app; vdso]).
Example C54_ex : maps_file ex_es ex_maps /\ steady [RGive 3; RGive 0] /\ run_maps [RGive 3; RGive 0] = Ok (Some vdso).
Proof.
  split; [|split].
  - exists [line1; line3; line2]. split; [|reflexivity]. apply Forall2_cons; [exact line1_ok|]. apply Forall2_cons; [exact line3_ok|]. apply Forall2_cons; [exact line2_ok|]. constructor.
  - apply Forall_cons; [eauto|]. apply Forall_cons; [eauto|constructor].
  - vm_compute. reflexivity.
Qed.
(** A name with white space is cut: a line of a file named "[vdso] x" is taken for that of the vdso. *)
Definition line4 : cstr := lit "00400000-0040b000 r-xp 00000000 fe:01 1234 [vdso] x".
Theorem C54_spaces_refuted : exists l b e name before line buf, hex_text (lit "00400000") b /\ hex_text (lit "0040b000") e /\
  before = lit "00400000-0040b000 r-xp 00000000 fe:01 1234 " /\ l = before ++ name /\ wf_cstr name /\ name <> vdso_label /\ bytes_at line 0 (l ++ [10; 0]) /\ accessible buf 0 4096 /\
  exists buf', parse_maps_line line buf = Ok (buf', Some (b, e)).
Proof.
  exists line4, 4194304, 4239360, (lit "[vdso] x"), (lit "00400000-0040b000 r-xp 00000000 fe:01 1234 "), (map Some (line4 ++ [10; 0])), (local (64 * 64)).
  split; [hex [0; 0; 4; 0; 0; 0; 0; 0]|]. split; [hex [0; 0; 4; 0; 11; 0; 0; 0]|]. split; [reflexivity|]. split; [reflexivity|]. split; [unfold wf_cstr; apply Forall_forall; intros c J; cbn in J; intuition lia|]. split; [discriminate|]. split.
  - apply bytes_atb_ok. vm_compute. reflexivity.
  - split; [exact (local_accessible (64 * 64))|]. eexists. vm_compute. reflexivity.
Qed.
Print Assumptions C54_spaces_refuted.
(** An interrupted read loses a byte of the line: the vdso is not found although the file names it. *)
Theorem C54_interrupt_refuted : exists es data sched line name r_map b e vd, maps_file es data /\ no_error sched /\ accessible line 0 4096 /\ accessible name 0 4096 /\
  first_with (fun x => snd x = vdso_label) es (b, e, vdso_label) /\ first_with (in_mapping b e) r_map vd /\
  get_vdso_from_maps (Some (data, sched)) line name r_map = Ok None.
Proof.
  exists [(140737353875456, 140737353883648, vdso_label)], (flat_map (fun l => l ++ [10]) [line2]), [RGive 0; RIntr], (local (64 * 64)), (local (64 * 64)), [app; vdso], 140737353875456, 140737353883648, vdso.
  split. { exists [line2]. split; [|reflexivity]. apply Forall2_cons; [exact line2_ok|constructor]. }
  split. { intros [J|[J|[]]]; discriminate J. }
  split; [exact (local_accessible (64 * 64))|]. split; [exact (local_accessible (64 * 64))|].
  split. { exists [], []. split; [auto|]. split; [auto|]. intros x []. }
  split. { exists [app], []. split; [auto|]. split; [unfold in_mapping, vdso; cbn; lia|]. intros x [<-|[]]. unfold in_mapping, app; cbn; lia. }
  vm_compute. reflexivity.
Qed.
Print Assumptions C54_interrupt_refuted.
