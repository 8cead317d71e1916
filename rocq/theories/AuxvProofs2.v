(** Proofs about /proc/self/maps. *)
From Verif Require Import Base ListFacts HashTrace LibcModel SpecLibc LibcProofs LibcProofs2 LibcProofs3 AuxvModel SpecAuxv AuxvProofs.

Definition hex_digit_char (c : Z) : bool := ((48 <=? c) && (c <=? 57)) || ((97 <=? c) && (c <=? 102)) || ((65 <=? c) && (c <=? 70)).

Lemma u64_step v d k N : u64 (u64 (v * 16 + d) * k + N) = u64 ((v * 16 + d) * k + N).
Proof. unfold u64. rewrite Zplus_mod, Zmult_mod_idemp_l, <- Zplus_mod. reflexivity. Qed.
Lemma read_hex_loop_ok m up : forall ds fuel p v len c, Forall (fun d => 0 <= d < 16) ds -> bytes_at m p (map (hex_char up) ds) -> holds m (p + zlen ds) c ->
  hex_digit_char c = false -> 0 <= v < two64 -> (length ds < fuel)%nat ->
  read_hex_loop fuel m p v len = Ok (u64 (v * 16 ^ zlen ds + number 16 ds), len + zlen ds).
Proof.
  induction ds as [|d ds IH]; intros fuel p v len c D B H N V F; (destruct fuel as [|g]; [cbn in F; lia|]); cbn [read_hex_loop].
  - cbn [length Z.of_nat] in *. rewrite Z.add_0_r in H. rewrite (holds_ld _ _ _ H). cbn [bind]. unfold hex_digit_char in N.
    apply orb_false_elim in N as [N N3]. apply orb_false_elim in N as [N1 N2]. rewrite N1, N2, N3.
    change (number 16 []) with 0. f_equal. f_equal; [|lia]. unfold u64. rewrite Z.mod_small by (unfold two64 in *; cbn; lia). cbn. lia.
  - inversion D as [|? ? Hd D']; subst. cbn [map bytes_at] in B. destruct B as [B1 B2]. rewrite (holds_ld _ _ _ B1). cbn [bind].
    assert (Next : read_hex_loop g m (p + 1) (u64 (v * 16 + d)) (len + 1) = Ok (u64 (v * 16 ^ zlen (d :: ds) + number 16 (d :: ds)), len + zlen (d :: ds))).
    { rewrite (IH g (p + 1) (u64 (v * 16 + d)) (len + 1) c D' B2).
      - rewrite u64_step, number_cons. cbn [length]. rewrite Nat2Z.inj_succ, Z.pow_succ_r by lia. f_equal. f_equal; [f_equal; ring|lia].
      - cbn [length] in H. replace (p + 1 + zlen ds) with (p + Z.of_nat (S (length ds))) by lia. auto.
      - auto.
      - unfold u64, two64. apply Z.mod_pos_bound. lia.
      - cbn [length] in F. lia. }
    unfold hex_char. destruct (Z.ltb_spec d 10).
    + replace ((48 <=? 48 + d) && (48 + d <=? 57)) with true by lia. replace (48 + d - 48) with d by lia. exact Next.
    + destruct up.
      * replace ((48 <=? 55 + d) && (55 + d <=? 57)) with false by lia. replace ((97 <=? 55 + d) && (55 + d <=? 102)) with false by lia.
        replace ((65 <=? 55 + d) && (55 + d <=? 70)) with true by lia. replace (55 + d - 65 + 10) with d by lia. exact Next.
      * replace ((48 <=? 87 + d) && (87 + d <=? 57)) with false by lia. replace ((97 <=? 87 + d) && (87 + d <=? 102)) with true by lia.
        replace (87 + d - 97 + 10) with d by lia. exact Next.
Qed.
Lemma read_hex_ok m p s v c : hex_text s v -> bytes_at m p s -> holds m (p + zlen s) c -> hex_digit_char c = false -> read_hex m p = Ok (u64 v, zlen s).
Proof.
  intros (up & ds & D & N & E & ->) B H C. rewrite map_length in *. unfold read_hex.
  rewrite (read_hex_loop_ok m up ds (S (length m)) p 0 0 c); auto.
  - rewrite E. f_equal.
  - unfold two64; lia.
  - apply bytes_at_bound in B; [rewrite map_length in B; lia|]. destruct ds; [congruence|discriminate].
Qed.
Lemma u64_id v : in_u64 v -> u64 v = v.
Proof. unfold in_u64, u64. intros. apply Z.mod_small. auto. Qed.

Lemma skip_spaces_ok m : forall sp fuel p len c, Forall (fun c => is_space c = true) sp -> bytes_at m p sp -> holds m (p + zlen sp) c -> is_space c = false -> (length sp < fuel)%nat ->
  skip_spaces fuel m p len = Ok (p + zlen sp, len + zlen sp).
Proof.
  induction sp as [|x sp IH]; intros fuel p len c S B H C F; (destruct fuel as [|g]; [cbn in F; lia|]); cbn [skip_spaces].
  - cbn [length Z.of_nat] in *. rewrite !Z.add_0_r in *. rewrite (holds_ld _ _ _ H). cbn [bind]. rewrite C. auto.
  - inversion S; subst. destruct B as [B1 B2]. rewrite (holds_ld _ _ _ B1). cbn [bind]. rewrite H2.
    rewrite (IH g (p + 1) (len + 1) c); auto; cbn [length] in *; [f_equal; f_equal; lia| |lia].
    replace (p + 1 + zlen sp) with (p + Z.of_nat (Datatypes.S (length sp))) by lia. auto.
Qed.
Definition ends (c : Z) : Prop := is_space c = true \/ c = 0.
Lemma ends_test c : ends c -> negb (is_space c) && negb (c =? 0) = false.
Proof. intros [->| ->]; reflexivity. Qed.
Lemma word_test c : is_space c = false -> 1 <= c <= 255 -> negb (is_space c) && negb (c =? 0) = true.
Proof. intros -> H. destruct (Z.eqb_spec c 0); [lia|reflexivity]. Qed.
Lemma word_loop_none m : forall w fuel p cur len c, Forall (fun c => is_space c = false) w -> wf_cstr w -> bytes_at m p w -> holds m (p + zlen w) c -> ends c -> (length w < fuel)%nat ->
  word_loop fuel m p None 0 cur len = Ok (None, len + zlen w).
Proof.
  induction w as [|x w IH]; intros fuel p cur len c S W B H C F; (destruct fuel as [|g]; [cbn in F; lia|]); cbn [word_loop].
  - cbn [length Z.of_nat] in *. rewrite !Z.add_0_r in *. rewrite (holds_ld _ _ _ H). cbn [bind]. rewrite (ends_test c C). reflexivity.
  - inversion S; subst. inversion W; subst. destruct B as [B1 B2]. rewrite (holds_ld _ _ _ B1). cbn [bind].
    rewrite word_test by (auto; lia). cbn [andb store bind].
    rewrite (IH g (p + 1) (cur + 1) (len + 1) c); auto; cbn [length] in *; [f_equal; f_equal; lia| |lia].
    replace (p + 1 + zlen w) with (p + Z.of_nat (Datatypes.S (length w))) by lia. auto.
Qed.
Lemma word_loop_some m size : forall w fuel p name cur len c, Forall (fun c => is_space c = false) w -> wf_cstr w -> bytes_at m p w -> holds m (p + zlen w) c -> ends c -> (length w < fuel)%nat ->
  accessible name 0 size -> 0 <= cur -> cur + zlen w < size ->
  exists name', word_loop fuel m p (Some name) size cur len = Ok (Some name', len + zlen w) /\ bytes_at name' cur (w ++ [0]) /\ same_but name name' cur (zlen w + 1).
Proof.
  induction w as [|x w IH]; intros fuel p name cur len c S W B H C F A C0 L; (destruct fuel as [|g]; [cbn in F; lia|]); cbn [word_loop].
  - cbn [length Z.of_nat] in *. rewrite !Z.add_0_r in *. rewrite (holds_ld _ _ _ H). cbn [bind]. rewrite (ends_test c C).
    replace (cur >=? size) with false by lia. cbn [store]. destruct (A cur ltac:(lia)) as [b Hb]. destruct (st_ok name cur b 0 Hb) as (n' & -> & Hn & Sn).
    cbn [bind]. exists n'. split; [auto|]. split; [|exact Sn]. split; [exact Hn|exact I].
  - inversion S; subst. inversion W; subst. destruct B as [B1 B2]. rewrite (holds_ld _ _ _ B1). cbn [bind length] in *.
    rewrite word_test by (auto; lia). replace (cur >=? size) with false by lia. cbn [andb store].
    destruct (A cur ltac:(lia)) as [b Hb]. destruct (st_ok name cur b x Hb) as (n' & -> & Hn & Sn). cbn [bind].
    rewrite Z.mod_small in Hn by lia.
    destruct (IH g (p + 1) n' (cur + 1) (len + 1) c) as (n'' & -> & B' & S'); auto; try lia.
    + replace (p + 1 + zlen w) with (p + Z.of_nat (Datatypes.S (length w))) by lia. auto.
    + eapply same_but_accessible; eauto. intros a Ha. replace a with cur by lia. eauto.
    + exists n''. split; [f_equal; f_equal; lia|]. split.
      * split; [|exact B']. eapply same_but_holds; eauto. lia.
      * eapply same_but_trans; eapply same_but_wider; eauto; lia.
Qed.

(** the word after white space *)
Lemma at_spaces m p sp w c : bytes_at m p (sp ++ w ++ [c]) -> bytes_at m p sp /\ bytes_at m (p + zlen sp) w /\ holds m (p + zlen sp + zlen w) c.
Proof. intros H. apply bytes_at_app in H as [H1 H]. apply bytes_at_app in H as [H2 H]. cbn [bytes_at] in H. tauto. Qed.
Lemma bytes_at_len m p l : bytes_at m p l -> (length l <= length m)%nat.
Proof. intros H. destruct l; [cbn; lia|]. apply bytes_at_bound in H; [lia|discriminate]. Qed.
Lemma not_space w : Forall (fun c => ~ In c [32; 9; 10]) w <-> Forall (fun c => is_space c = false) w.
Proof.
  rewrite !Forall_forall. unfold is_space. split; intros H c J; specialize (H c J).
  - destruct (Z.eqb_spec c 32), (Z.eqb_spec c 9), (Z.eqb_spec c 10); subst; cbn in *; tauto.
  - intros [<-|[<-|[<-|[]]]]; discriminate H.
Qed.
Lemma read_word_skip m p sp w c : Forall (fun c => is_space c = true) sp -> plain_word w -> bytes_at m p (sp ++ w ++ [c]) -> ends c ->
  read_word m p None 0 = Ok (None, zlen sp + zlen w).
Proof.
  intros S (W & N & P) B C. apply not_space in P. assert (L := bytes_at_len _ _ _ B). rewrite !app_length in L. cbn in L. apply at_spaces in B as (B1 & B2 & B3). unfold read_word.
  destruct w as [|x w]; [congruence|]. inversion P; subst. inversion W; subst. destruct B2 as [B2 B2'].
  rewrite (skip_spaces_ok m sp (Datatypes.S (length m)) p 0 x); auto; [|lia]. cbn [bind]. rewrite (holds_ld _ _ _ B2). cbn [bind].
  destruct (Z.eqb_spec x 0); [lia|].
  rewrite (word_loop_none m (x :: w) _ _ 0 (0 + zlen sp) c); auto; [split; auto|lia].
Qed.
Lemma read_word_name m p sp w c name size : Forall (fun c => is_space c = true) sp -> plain_word w -> bytes_at m p (sp ++ w ++ [c]) -> ends c ->
  accessible name 0 size -> zlen w < size ->
  exists name', read_word m p (Some name) size = Ok (Some name', zlen sp + zlen w) /\ str_at name' 0 w /\ same_but name name' 0 (zlen w + 1).
Proof.
  intros S (W & N & P) B C A Lw. apply not_space in P. assert (L := bytes_at_len _ _ _ B). rewrite !app_length in L. cbn in L. apply at_spaces in B as (B1 & B2 & B3). unfold read_word.
  destruct w as [|x w]; [congruence|]. assert (P' := P). assert (W' := W). assert (B2' := B2). inversion P'; subst. inversion W'; subst. destruct B2' as [B2' _].
  rewrite (skip_spaces_ok m sp (Datatypes.S (length m)) p 0 x); auto; [|lia]. cbn [bind]. rewrite (holds_ld _ _ _ B2'). cbn [bind].
  destruct (Z.eqb_spec x 0); [lia|].
  destruct (word_loop_some m size (x :: w) (Datatypes.S (length m)) (p + zlen sp) name 0 (0 + zlen sp) c) as (n' & E & B' & S'); auto; try lia.
  rewrite E. exists n'. split; [auto|]. split; [split; auto|auto].
Qed.
Lemma read_word_nothing m p sp name size : Forall (fun c => is_space c = true) sp -> bytes_at m p (sp ++ [0]) -> accessible name 0 size -> 0 < size ->
  exists name', read_word m p (Some name) size = Ok (Some name', zlen sp) /\ str_at name' 0 [] /\ same_but name name' 0 1.
Proof.
  intros S B A L. assert (Lm := bytes_at_len _ _ _ B). rewrite app_length in Lm. cbn in Lm. apply bytes_at_app in B as [B1 B2]. destruct B2 as [B2 _].
  unfold read_word. rewrite (skip_spaces_ok m sp (Datatypes.S (length m)) p 0 0); auto; [|lia]. cbn [bind]. rewrite (holds_ld _ _ _ B2). cbn [bind Z.eqb].
  destruct (A 0 ltac:(lia)) as [b Hb]. destruct (st_ok name 0 b 0 Hb) as (n' & -> & Hn & Sn). cbn [bind]. exists n'. split; [auto|]. split; [|auto].
  split; [constructor|]. split; [exact Hn|exact I].
Qed.

Lemma bytes_at_l m m' p l : bytes_at m p l -> bytes_at (m ++ m') p l.
Proof.
  revert p; induction l as [|x l IH]; intros p H; [exact I|]. destruct H as [[H0 H1] H2]. split; [|apply IH; auto]. split; [auto|].
  rewrite nth_error_app1; [auto|]. eapply nth_error_Some_lt; eauto.
Qed.
Lemma bytes_at_r m m' p l : 0 <= p -> bytes_at m' p l -> bytes_at (m ++ m') (zlen m + p) l.
Proof.
  revert p; induction l as [|x l IH]; intros p P H; [exact I|]. destruct H as [[H0 H1] H2]. split.
  - split; [lia|]. rewrite nth_error_app2 by lia. replace (Z.to_nat (zlen m + p) - length m)%nat with (Z.to_nat p) by lia. auto.
  - replace (zlen m + p + 1) with (zlen m + (p + 1)) by lia. apply IH; [lia|auto].
Qed.
Lemma vdso_label_wf : wf_cstr vdso_label.
Proof. unfold vdso_label, wf_cstr. cbn. repeat constructor; lia. Qed.
Lemma spaces32 pad : Forall (fun c => c = 32) pad -> Forall (fun c => is_space c = true) pad.
Proof. intros H. eapply Forall_impl; [|exact H]. intros a ->. reflexivity. Qed.

Lemma first_word_some name w : wf_cstr name -> (exists c r, name = c :: r /\ ~ In c [32; 9; 10]) -> first_word name w ->
  plain_word w /\ exists t, name = w ++ t /\ exists x r, t ++ [10; 0] = x :: r /\ ends x.
Proof.
  intros W (c & r & -> & Nc) (t & E & F & T). assert (Nw : w <> []).
  { intros ->. cbn in E. destruct T as [->|(d & q & -> & Jd)]; [discriminate E|]. injection E as -> _. contradiction. }
  split; [split; [|auto]; rewrite E in W; apply wf_app in W; apply W|]. exists t. split; [auto|].
  destruct T as [->|(d & q & -> & Jd)]; [exists 10, [0]; split; [auto|left; reflexivity]|]. exists d. eexists. split; [reflexivity|].
  destruct Jd as [<-|[<-|[<-|[]]]]; left; reflexivity.
Qed.
Lemma parse_maps_text l b e name w line buf :
  maps_text l b e name -> first_word name w -> in_u64 b -> in_u64 e -> bytes_at line 0 (l ++ [10; 0]) -> zlen l <= 4094 -> accessible buf 0 4096 ->
  exists buf', parse_maps_line line buf = Ok (buf', if cstr_eq_dec w vdso_label then Some (b, e) else None) /\ accessible buf' 0 4096 /\ str_at buf' 0 w.
Proof.
  intros (bs & es & pe & off & dev & ino & pad & Hb & He & Pp & Po & Pd & Pi & Sp & Nm & ->) Fw Ib Ie B L A.
  unfold parse_maps_line. rewrite <- !app_assoc in B.
  apply bytes_at_app in B as [B1 B]. apply bytes_at_app in B as [Bd B]. apply bytes_at_app in B as [B2 B].
  cbn [bytes_at length Z.of_nat Pos.of_succ_nat] in Bd. destruct Bd as [Bd _]. rewrite Z.add_0_l in *.
  rewrite (read_hex_ok line 0 bs b 45 Hb B1 Bd eq_refl). cbn [bind]. rewrite (holds_ld _ _ _ Bd). cbn [bind Z.eqb Pos.eqb negb].
  assert (Bs := B). cbn [app] in Bs. destruct Bs as [Bs _].
  change (Z.of_nat (length [45])) with 1 in *.
  rewrite (read_hex_ok line (zlen bs + 1) es e 32 He B2 Bs eq_refl). cbn [bind].
  set (pos := zlen bs + 1 + zlen es) in *.
  (* the four words *)
  assert (Skip : forall p wd x r, plain_word wd -> bytes_at line p ([32] ++ wd ++ x :: r) -> ends x -> read_word line p None 0 = Ok (None, zlen wd + 1) /\ bytes_at line (p + (zlen wd + 1)) (x :: r)).
  { intros p wd x r Pw Hw Ex. split.
    - rewrite (read_word_skip line p [32] wd x); auto; [rewrite (Z.add_comm (zlen wd)); reflexivity|].
      change (x :: r) with ([x] ++ r) in Hw. rewrite !app_assoc in Hw. apply bytes_at_app in Hw as [Hw _]. rewrite <- !app_assoc in Hw. auto.
    - rewrite app_assoc in Hw. apply bytes_at_app in Hw as [_ Hw]. rewrite app_length in Hw. cbn [length] in Hw.
      replace (p + (zlen wd + 1)) with (p + Z.of_nat (1 + length wd)) by lia. auto. }
  destruct (Skip pos pe 32 _ Pp B ltac:(left; reflexivity)) as [E1 B3].
  destruct (Skip _ off 32 _ Po B3 ltac:(left; reflexivity)) as [E2 B4].
  destruct (Skip _ dev 32 _ Pd B4 ltac:(left; reflexivity)) as [E3 B5].
  rewrite E1; cbn [bind]. rewrite E2; cbn [bind]. rewrite E3; cbn [bind].
  assert (B6 : exists x r, pad ++ name ++ [10; 0] = x :: r /\ ends x).
  { destruct pad as [|y pad]; [|exists y; eexists; split; [reflexivity|]; inversion Sp; subst; left; reflexivity].
    destruct Nm as [->|(_ & _ & _ & Nm)]; [|congruence]. exists 10, [0]. split; [auto|left; reflexivity]. }
  destruct B6 as (x & r & E6 & Ex).
  change (32 :: ino ++ pad ++ name ++ [10; 0]) with ([32] ++ ino ++ pad ++ name ++ [10; 0]) in B5.
  match type of B5 with bytes_at _ ?p _ => set (pos3 := p) in * end.
  rewrite E6 in B5. destruct (Skip pos3 ino x r Pi B5 Ex) as [E4 B7]. rewrite E4; cbn [bind].
  rewrite <- E6 in B7. set (pos4 := pos3 + (zlen ino + 1)) in *. unfold BUFFER_LEN.
  assert (Fin : exists buf', (exists n, read_word line pos4 (Some buf) 4096 = Ok (Some buf', n)) /\ str_at buf' 0 w /\ length buf' = length buf /\ accessible buf' 0 4096).
  { rewrite !app_length in L. cbn [length] in L. destruct Nm as [->|(Wn & _ & Hc & Np)].
    - assert (w = []) as -> by (destruct Fw as (t & E & _); destruct w; [auto|discriminate E]). destruct (read_word_nothing line pos4 (pad ++ [10]) buf 4096) as (b' & E & S & SB); auto; try lia.
      + apply Forall_app. split; [apply spaces32; auto|repeat constructor].
      + rewrite <- app_assoc. exact B7.
      + exists b'. split; [eauto|]. split; [auto|]. split; [apply SB|]. eapply same_but_accessible; eauto.
        intros a Ha. destruct S as [_ S]. cbn in S. replace a with 0 by lia. exists 0. tauto.
    - destruct (first_word_some _ _ Wn Hc Fw) as (Pw & t & -> & y & q & Et & Ey). rewrite app_length in L.
      destruct (read_word_name line pos4 pad w y buf 4096) as (b' & E & S & SB); auto.
      + apply spaces32; auto.
      + rewrite <- app_assoc, Et in B7. change (y :: q) with ([y] ++ q) in B7. rewrite !app_assoc in B7. apply bytes_at_app in B7 as [B7 _]. rewrite <- app_assoc in B7. auto.
      + lia.
      + exists b'. split; [eauto|]. split; [auto|]. split; [apply SB|]. eapply same_but_accessible; eauto.
        intros a Ha. destruct S as [_ S]. apply bytes_at_accessible in S. apply S. rewrite app_length; cbn [length]. lia. }
  destruct Fin as (buf' & (n & ->) & S & LB & A'). cbn [bind].
  assert (Wn : wf_cstr w) by apply S.
  change vdso_name with vdso_label. rewrite (strcmp_ok (buf' ++ literal vdso_label) 0 (zlen buf') w vdso_label).
  - cbn [bind]. exists buf'. split; [|auto]. f_equal. f_equal. rewrite (u64_id b Ib), (u64_id e Ie).
    destruct (Z.eqb_spec (cmp_val w vdso_label) 0) as [E|E]; [rewrite cmp_val_0 in E by (auto using vdso_label_wf)|]; destruct (cstr_eq_dec w vdso_label) as [E'|E']; auto; [congruence|].
    elim E. subst. apply cmp_val_0; auto using vdso_label_wf.
  - split; [auto|]. apply bytes_at_l. apply S.
  - destruct (literal_at vdso_label vdso_label_wf) as [W H]. split; [auto|]. replace (zlen buf') with (zlen buf' + 0) by lia. apply bytes_at_r; [lia|auto].
  - unfold short, INT_MAX. rewrite !app_length in L. destruct Fw as (t & -> & _). rewrite app_length in L. unfold cstr in *. lia.
Qed.

Lemma plain_first name : plain_word name -> first_word name name.
Proof. intros (_ & _ & P). exists []. rewrite app_nil_r. auto. Qed.
Lemma maps_line_text l b e name : maps_line l b e name -> maps_text l b e name /\ first_word name name.
Proof.
  intros (bs & es & pe & off & dev & ino & pad & Hb & He & Pp & Po & Pd & Pi & Sp & Nm & ->). split.
  - exists bs, es, pe, off, dev, ino, pad. do 7 (split; [auto|]). split; [|auto]. destruct Nm as [->|[Nm Np]]; [auto|]. right. destruct Nm as (W & N & P).
    split; [auto|]. split; [intros J; rewrite Forall_forall in P; apply (P 10 J); cbn; auto|]. split; [|auto]. destruct name as [|c r]; [congruence|]. exists c, r. split; [auto|]. inversion P; auto.
  - destruct Nm as [->|[Nm _]]; [|apply plain_first; auto]. exists []. auto.
Qed.
Lemma parse_maps_line_ok l b e name line buf :
  maps_line l b e name -> in_u64 b -> in_u64 e -> bytes_at line 0 (l ++ [10; 0]) -> zlen l <= 4094 -> accessible buf 0 4096 ->
  exists buf', parse_maps_line line buf = Ok (buf', if cstr_eq_dec name vdso_label then Some (b, e) else None) /\ accessible buf' 0 4096 /\ str_at buf' 0 name.
Proof. intros M. apply maps_line_text in M as [M F]. apply (parse_maps_text l b e name name line buf M F). Qed.

(** *** read_line *)
Lemma steady_1 data sched b : steady sched -> exists sched', kread 1 (b :: data, sched) = (Got [b], (data, sched')) /\ steady sched'.
Proof.
  intros S. destruct sched as [|r sched]; [exists []; split; [reflexivity|constructor]|]. inversion S as [|? ? [n ->] S']; subst.
  exists sched. split; [|auto]. cbn [kread]. replace (Nat.min 1 (Datatypes.S n)) with 1%nat by lia. reflexivity.
Qed.
Lemma steady_0 sched : steady sched -> exists f, kread 1 ([], sched) = (Got [], f).
Proof.
  intros S. destruct sched as [|r sched]; [eexists; reflexivity|]. inversion S as [|? ? [n ->] S']; subst. cbn [kread]. rewrite firstn_nil. eauto.
Qed.
Lemma read_line_loop_ok size rest : forall l n line i sched, wf_cstr l -> ~ In 10 l -> steady sched -> accessible line 0 size -> 0 <= i ->
  Z.of_nat n = size - 1 - i -> zlen l < Z.of_nat n ->
  exists line' sched', read_line_loop n line i size (l ++ 10 :: rest, sched) = Ok (line', 0, (rest, sched')) /\ steady sched' /\
    bytes_at line' i (l ++ [10; 0]) /\ same_but line line' i (zlen l + 2) /\ accessible line' 0 size.
Proof.
  induction l as [|x l IH]; intros n line i sched W N S A I0 En L; (destruct n as [|n]; [cbn in L; lia|]); cbn [read_line_loop app].
  - destruct (steady_1 rest sched 10 S) as (s' & -> & S'). destruct (A i ltac:(lia)) as [b Hb]. destruct (st_ok line i b 10 Hb) as (l1 & -> & H1 & S1). cbn [bind Z.eqb Pos.eqb].
    assert (A1 : accessible l1 0 size) by (eapply same_but_accessible; eauto; intros a Ha; replace a with i by lia; eauto).
    destruct (A1 (i + 1) ltac:(lia)) as [b' Hb']. destruct (st_ok l1 (i + 1) b' 0 Hb') as (l2 & -> & H2 & S2). cbn [bind].
    exists l2, s'. split; [auto|]. split; [auto|]. split; [|split].
    + split; [|split; [exact H2|exact I]]. eapply same_but_holds; eauto. lia.
    + cbn [length]. eapply same_but_trans; eapply same_but_wider; eauto; lia.
    + eapply same_but_accessible; eauto; intros a Ha; replace a with (i + 1) by lia; eauto.
  - inversion W; subst. destruct (steady_1 (l ++ 10 :: rest) sched x S) as (s' & -> & S'). destruct (A i ltac:(lia)) as [b Hb]. destruct (st_ok line i b x Hb) as (l1 & -> & H1' & S1). cbn [bind].
    rewrite Z.mod_small in H1' by lia. destruct (Z.eqb_spec x 10); [elim N; left; auto|].
    assert (A1 : accessible l1 0 size) by (eapply same_but_accessible; eauto; intros a Ha; replace a with i by lia; eauto).
    destruct (IH n l1 (i + 1) s') as (l2 & s2 & E & S2 & B2 & SB2 & A2); auto; try (cbn [length] in *; lia). { intros J. apply N. right. auto. }
    exists l2, s2. split; [exact E|]. split; [auto|]. split; [|split; [|auto]].
    + split; [|exact B2]. eapply same_but_holds; eauto. lia.
    + cbn [length]. eapply same_but_trans; eapply same_but_wider; eauto; lia.
Qed.
Lemma read_line_eof line sched : steady sched -> accessible line 0 4096 -> exists line' f, read_line line BUFFER_LEN ([], sched) = Ok (line', -1, f).
Proof.
  intros S A. unfold read_line, BUFFER_LEN. replace (Z.to_nat (4096 - 1)) with (Datatypes.S (Z.to_nat 4094)) by lia.
  generalize (Z.to_nat 4094). intros n. cbn [read_line_loop].
  destruct (steady_0 sched S) as (f & ->). destruct (A 0 ltac:(lia)) as [b Hb]. destruct (st_ok line 0 b 0 Hb) as (l1 & -> & _). cbn [bind]. eauto.
Qed.

(** *** the file *)
Lemma hex_text_wf s v : hex_text s v -> wf_cstr s /\ ~ In 10 s /\ s <> [].
Proof.
  intros (up & ds & D & N & _ & ->). assert (H : Forall (fun c => 48 <= c <= 255) (map (hex_char up) ds)).
  { apply Forall_forall. intros c J. apply in_map_iff in J as (d & <- & J). rewrite Forall_forall in D. specialize (D d J). unfold hex_char. destruct (Z.ltb_spec d 10); [lia|]. destruct up; lia. }
  split; [|split].
  - eapply Forall_impl; [|exact H]. cbn. intros; lia.
  - intros J. rewrite Forall_forall in H. specialize (H 10 J). lia.
  - destruct ds; [congruence|discriminate].
Qed.
Lemma plain_word_nl s : plain_word s -> wf_cstr s /\ ~ In 10 s.
Proof. intros (W & _ & P). split; [auto|]. intros J. rewrite Forall_forall in P. apply (P 10 J). cbn. auto. Qed.
Lemma maps_line_wf l b e name : maps_line l b e name -> wf_cstr l /\ ~ In 10 l.
Proof.
  intros (bs & es & pe & off & dev & ino & pad & Hb & He & Pp & Po & Pd & Pi & Sp & Nm & ->).
  apply hex_text_wf in Hb as (? & ? & _). apply hex_text_wf in He as (? & ? & _). apply plain_word_nl in Pp as (? & ?). apply plain_word_nl in Po as (? & ?).
  apply plain_word_nl in Pd as (? & ?). apply plain_word_nl in Pi as (? & ?).
  assert (wf_cstr pad /\ ~ In 10 pad) as [? ?].
  { split; [eapply Forall_impl; [|exact Sp]; cbn; intros ? ->; lia|]. intros J. rewrite Forall_forall in Sp. specialize (Sp 10 J). lia. }
  assert (wf_cstr name /\ ~ In 10 name) as [? ?].
  { destruct Nm as [->|[Nm _]]; [split; [constructor|auto]|apply plain_word_nl; auto]. }
  assert (wf_cstr [45] /\ wf_cstr [32]) as [? ?] by (split; repeat constructor; lia).
  split; [rewrite !wf_app; tauto|]. rewrite !in_app_iff. cbn. intuition lia.
Qed.
Lemma maps_loop_ok : forall ls es fuel line name sched, Forall2 describes ls es -> steady sched -> accessible line 0 4096 -> accessible name 0 4096 -> (length es < fuel)%nat ->
  exists r, maps_loop fuel line name (flat_map (fun l => l ++ [10]) ls, sched) = Ok r /\ vdso_range es r.
Proof.
  induction ls as [|l ls IH]; intros es fuel line name sched D S AL AN F; inversion D as [|? [[b e] nm] ? es' Dx D']; subst; (destruct fuel as [|g]; [cbn in F; lia|]); cbn [maps_loop flat_map].
  - destruct (read_line_eof line sched S AL) as (l' & f & E). rewrite E. cbn [bind Z.eqb negb]. exists None. split; [auto|]. intros x [].
  - destruct Dx as (Hl & Ib & Ie & Ll). destruct (maps_line_wf _ _ _ _ Hl) as [Wl Nl].
    rewrite <- app_assoc. cbn [app]. set (rest := flat_map (fun l => l ++ [10]) ls) in *.
    destruct (read_line_loop_ok 4096 rest l (Z.to_nat (4096 - 1)) line 0 sched Wl Nl S AL) as (line' & sched' & E & S' & B & _ & A'); try lia.
    unfold read_line, BUFFER_LEN. rewrite E. cbn [bind Z.eqb negb].
    destruct (parse_maps_line_ok l b e nm line' name Hl Ib Ie B Ll AN) as (name' & -> & AN' & _). cbn [bind].
    destruct (cstr_eq_dec nm vdso_label) as [->|Nn].
    + exists (Some (b, e)). split; [auto|]. exists [], es'. split; [auto|]. split; [auto|]. intros x [].
    + destruct (IH es' g line' name' sched' D' S' A' AN' ltac:(cbn [length] in F; lia)) as (r & E2 & V).
      unfold BUFFER_LEN in *. rewrite E2. exists r. split; [auto|]. destruct r as [[b' e']|]; cbn in *.
      * destruct V as (be & af & -> & P & Q). exists ((b, e, nm) :: be), af. split; [auto|]. split; [auto|]. intros x [<-|J]; [exact Nn|auto].
      * intros x [<-|J]; [exact Nn|apply V; auto].
Qed.
Lemma find_first {A} (f : A -> bool) (P : A -> Prop) l : (forall x, f x = true <-> P x) ->
  match find f l with Some m => first_with P l m | None => forall x, In x l -> ~ P x end.
Proof.
  intros HP. induction l as [|x l IH]; cbn [find]; [intros x []|]. destruct (f x) eqn:E.
  - exists [], l. split; [auto|]. split; [apply HP; auto|]. intros y [].
  - assert (Nx : ~ P x) by (intros J; apply HP in J; congruence). destruct (find f l) as [m|].
    + destruct IH as (be & af & -> & Pm & Q). exists (x :: be), af. split; [auto|]. split; [auto|]. intros y [<-|J]; auto.
    + intros y [<-|J]; auto.
Qed.
Lemma first_unique {A} (P : A -> Prop) l x y : first_with P l x -> first_with P l y -> x = y.
Proof.
  intros (b1 & a1 & E1 & P1 & Q1) (b2 & a2 & E2 & P2 & Q2). rewrite E1 in E2. clear l E1. revert b2 E2 Q2. induction b1 as [|z b1 IH]; intros [|w b2] E Q2; cbn in E; inversion E; subst.
  - auto.
  - elim (Q2 w); [left; auto|auto].
  - elim (Q1 y); [left; auto|auto].
  - eapply IH; eauto; intros; [apply Q1|apply Q2]; right; auto.
Qed.
Lemma describes_length ls es : Forall2 describes ls es -> (length es <= length (flat_map (fun l : list Z => l ++ [10%Z]) ls))%nat.
Proof. induction 1; cbn [flat_map length]; [lia|]. rewrite !app_length. cbn [length]. lia. Qed.

(** *** the link maps *)
Lemma has_alias_ok m : has_alias m = true <-> named_alias m.
Proof.
  unfold has_alias, named_alias. change vdso_aliases with alias_names. rewrite existsb_exists. split.
  - intros (al & J & E). destruct (vm_name m) as [n|] eqn:En; [|discriminate E]. exists n. split; [auto|]. apply Z.eqb_eq in E.
    apply libc_strcmp_eq0 in E; auto. subst; auto.
  - intros (n & En & J). exists n. split; [auto|]. rewrite En. apply Z.eqb_eq. apply libc_strcmp_eq0; auto.
Qed.
