(** Proofs about slong_to_str and gotcha_int_printf. *)
From Verif Require Import Base ListFacts LibcModel SpecLibc LibcProofs LibcProofs2.

Lemma dec_digit_ok d : 0 <= d < 10 -> 1 <= dec_digit d <= 255.
Proof. unfold dec_digit. lia. Qed.
Lemma hex_digit_char u d : 0 <= d < 16 -> hex_digit u d = hex_char u d.
Proof. unfold hex_digit, hex_char. intros. destruct (Z.leb_spec d 9), (Z.ltb_spec d 10), u; lia. Qed.
Lemma hex_digit_ok u d : 0 <= d < 16 -> 1 <= hex_digit u d <= 255.
Proof. unfold hex_digit. intros. destruct (Z.leb_spec d 9), u; lia. Qed.
Lemma map_hex u ds : Forall (fun d => 0 <= d < 16) ds -> map (hex_digit u) ds = map (hex_char u) ds.
Proof. intros F. apply map_ext_in. intros d Hd. eapply Forall_forall in F; eauto. apply hex_digit_char. auto. Qed.

(** [fits], in terms of the string *)
Definition fits_in (num strlen : Z) (s : cstr) : Prop := if num =? 0 then 2 <= strlen else zlen s + 1 < strlen.

Lemma ulong_to_str_ok m num str strlen s : 0 <= num < two64 -> decimal num s -> accessible m str strlen ->
  (fits_in num strlen s -> exists m', ulong_to_str m num str strlen = Ok (m', zlen s) /\ str_at m' str s /\ same_but m m' str (zlen s + 1)) /\
  (~ fits_in num strlen s -> ulong_to_str m num str strlen = Ok (m, -1)).
Proof.
  intros P (ds & C & ->) A. rewrite Z.abs_eq in C by lia. destruct (Z.ltb_spec num 0); [lia|]. cbn [app].
  destruct (ulong_to_ok 10 dec_digit m num str strlen ds) as [H1 H2]; auto using dec_digit_ok; try lia.
  unfold fits_in. rewrite map_length. split; [exact H1|exact H2].
Qed.
Lemma ulong_to_hexstr_ok m num str strlen u s : 0 <= num < two64 -> hexadecimal u num s -> accessible m str strlen ->
  (fits_in num strlen s -> exists m', ulong_to_hexstr m num str strlen u = Ok (m', zlen s) /\ str_at m' str s /\ same_but m m' str (zlen s + 1)) /\
  (~ fits_in num strlen s -> ulong_to_hexstr m num str strlen u = Ok (m, -1)).
Proof.
  intros P (ds & C & ->) A.
  destruct (ulong_to_ok 16 (hex_digit u) m num str strlen ds) as [H1 H2]; auto using hex_digit_ok; try lia.
  unfold fits_in. rewrite map_length. rewrite <- map_hex by apply C. split; [exact H1|exact H2].
Qed.
Lemma slong_to_str_ok m num str strlen s : LONG_MIN < num <= 9223372036854775807 -> decimal num s -> accessible m str strlen ->
  (fits_in num strlen s -> exists m', slong_to_str m num str strlen = Ok (m', zlen s) /\ str_at m' str s /\ same_but m m' str (zlen s + 1)) /\
  (~ fits_in num strlen s -> slong_to_str m num str strlen = Ok (m, -1)).
Proof.
  intros P D A. unfold slong_to_str. destruct (Z.leb_spec 0 num) as [L|L].
  - apply ulong_to_str_ok; auto. unfold two64. lia.
  - destruct (Z.eqb_spec num LONG_MIN) as [->|N]; [lia|]. unfold LONG_MIN in *.
    destruct D as (ds & C & ->). rewrite Z.abs_neq in C by lia. destruct (Z.ltb_spec num 0); [|lia]. cbn [app].
    assert (D : decimal (- num) (map dec_char ds)).
    { exists ds. rewrite Z.abs_eq by lia. destruct (Z.ltb_spec (- num) 0); [lia|]. auto. }
    destruct (ulong_to_str_ok m (- num) (str + 1) (strlen - 1) (map dec_char ds)) as [H1 H2]; auto.
    { unfold two64. lia. } { intros a Ha. apply A. lia. }
    unfold fits_in in *. destruct (Z.eqb_spec num 0); [lia|]. destruct (Z.eqb_spec (- num) 0); [lia|]. cbn [length] in *. split; intros F.
    + destruct H1 as (m1 & -> & S1 & B1); [lia|]. cbn [bind]. destruct (Z.eqb_spec (zlen (map dec_char ds)) (-1)); [lia|].
      destruct (A str) as (x & Hx); [lia|]. apply (same_but_holds _ _ _ _ _ _ B1) in Hx; [|lia].
      destruct (st_ok m1 str x 45 Hx) as (m2 & -> & H3 & B2). cbn [bind]. exists m2. split; [repeat f_equal; lia|]. split.
      * split; [constructor; [lia|apply S1]|]. cbn [app bytes_at]. split; [exact H3|].
        eapply bytes_at_same; [exact B2|lia|apply S1].
      * eapply same_but_trans; eapply same_but_wider; eauto; lia.
    + rewrite H2 by lia. reflexivity.
Qed.

(** lengths of numbers in a 64-byte array *)
Lemma canonical_len10 base num ds : 10 <= base -> canonical base num ds -> 0 <= num < two64 -> zlen ds <= 20.
Proof.
  intros B C P. destruct (Z.eq_dec num 0) as [->|N0]; [rewrite (canonical_0 base ds ltac:(lia) C); cbn; lia|].
  pose proof (canonical_low base num ds ltac:(lia) C ltac:(lia)).
  assert (10 ^ (zlen ds - 1) <= base ^ (zlen ds - 1)) by (apply Z.pow_le_mono_l; lia).
  destruct (Z_le_gt_dec (zlen ds) 20) as [L|L]; [auto|].
  assert (10 ^ 20 <= 10 ^ (zlen ds - 1)) by (apply Z.pow_le_mono_r; lia). unfold two64 in P. lia.
Qed.
Lemma local_accessible n : accessible (local n) 0 (Z.of_nat n).
Proof. intros a Ha. exists 0. split; [lia|]. apply nth_error_repeat. lia. Qed.

(** *** the buffer *)
Lemma nth_hd (t : cstr) d : t <> [] -> nth 0 t d = hd d t.
Proof. destruct t; [congruence|auto]. Qed.
Lemma repeats_first_snoc t c : repeats_first (t ++ [c]) = repeats_first t ++ [if zlen t mod 4096 =? 0 then hd c t else c].
Proof.
  unfold repeats_first. rewrite app_length. cbn [length]. rewrite Nat.add_1_r, seq_S, map_app. cbn [map Nat.add]. f_equal.
  - apply map_ext_in. intros i Hi. apply in_seq in Hi. destruct (Z.of_nat i mod 4096 =? 0); apply app_nth1; lia.
  - destruct (zlen t mod 4096 =? 0).
    + destruct t; reflexivity.
    + rewrite app_nth2 by lia. now rewrite Nat.sub_diag.
Qed.
Lemma repeats_first_length t : length (repeats_first t) = length t.
Proof. unfold repeats_first. now rewrite map_length, seq_length. Qed.

Record pinv (p : pstate) (t : cstr) : Prop := mkPinv {
  pi_buf : zlen (p_buf p) = 4096;
  pi_pos : 0 <= p_pos p <= 4096;
  pi_num : p_num p = zlen (concat (p_out p));
  pi_mod : p_num p mod 4096 = 0;
  pi_out : concat (p_out p) ++ firstn (Z.to_nat (p_pos p)) (p_buf p) = repeats_first t;
  pi_full : Forall (fun c => zlen c = 4096) (p_out p);
  pi_rest : p_out p <> [] -> 1 <= p_pos p;
  pi_first : t <> [] -> 1 <= p_pos p /\ nth_error (p_buf p) 0 = Some (hd 0 t) }.
Lemma pinv_len p t : pinv p t -> zlen t = p_num p + p_pos p.
Proof.
  intros H. pose proof (f_equal (@length Z) (pi_out _ _ H)) as E. rewrite app_length, repeats_first_length, firstn_length in E.
  pose proof (pi_buf _ _ H). pose proof (pi_pos _ _ H). pose proof (pi_num _ _ H). lia.
Qed.
Lemma pinv_start buf : zlen buf = 4096 -> pinv (mkP 0 buf 0 []) [].
Proof. intros H. split; cbn; auto; try lia; congruence. Qed.
(** one character *)
Definition put (c : Z) (p : pstate) : outcome pstate :=
  do p <- (if p_pos p >=? buffer_size
           then do n <- int_op (p_num p + buffer_size);
                Ok (mkP 0 (p_buf p) n (p_out p ++ [firstn (Z.to_nat buffer_size) (p_buf p)]))
           else Ok (mkP (p_pos p) (upd (p_buf p) (Z.to_nat (p_pos p)) (fun _ => c)) (p_num p) (p_out p)));
  Ok (mkP (p_pos p + 1) (p_buf p) (p_num p) (p_out p)).
Lemma firstn_upd_last {A} (l : list A) i x : (i < length l)%nat -> firstn (S i) (upd l i (fun _ => x)) = firstn i l ++ [x].
Proof. revert i; induction l as [|y l IH]; intros [|i] H; cbn in *; auto; try lia. f_equal. apply IH. lia. Qed.
Lemma hd_app (t : cstr) c d : t <> [] -> hd d (t ++ [c]) = hd d t.
Proof. destruct t; [congruence|auto]. Qed.
Lemma put_ok c p t : pinv p t -> zlen t <= INT_MAX -> exists p', put c p = Ok p' /\ pinv p' (t ++ [c]).
Proof.
  intros H L. pose proof (pinv_len _ _ H) as E. destruct H as [Hb Hp Hn Hm Ho HF HR Hf]. unfold put, buffer_size. rewrite Z.geb_leb.
  destruct (Z.leb_spec 4096 (p_pos p)) as [G|G].
  - rewrite int_op_ok by (unfold INT_MIN; lia). cbn [bind]. eexists. split; [reflexivity|]. cbn [p_pos p_buf p_num p_out].
    assert (NE : t <> []) by (intros ->; cbn in E; lia). destruct (Hf NE) as [_ Hf0].
    replace (p_pos p) with 4096 in * by lia.
    split; cbn [p_pos p_buf p_num p_out]; rewrite ?concat_app; cbn [concat]; rewrite ?app_nil_r; auto; try lia.
    + rewrite app_length, firstn_length. lia.
    + replace (p_num p + 4096) with (p_num p + 1 * 4096) by lia. rewrite Z_mod_plus by lia. auto.
    + rewrite Ho, repeats_first_snoc. f_equal. rewrite E. replace (p_num p + 4096) with (p_num p + 1 * 4096) by lia. rewrite Z_mod_plus, Hm by lia. cbn [Z.eqb].
      destruct (p_buf p) as [|b l]; [discriminate|]. cbn in Hf0. injection Hf0 as ->. destruct t; [congruence|reflexivity].
    + apply Forall_app. split; [exact HF|]. constructor; [|constructor]. rewrite firstn_length. lia.
    + intros _. split; [lia|]. rewrite hd_app by auto. auto.
  - cbn [bind]. eexists. split; [reflexivity|]. cbn [p_pos p_buf p_num p_out].
    split; cbn [p_pos p_buf p_num p_out]; auto; try lia.
    + rewrite upd_length. auto.
    + replace (Z.to_nat (p_pos p + 1)) with (S (Z.to_nat (p_pos p))) by lia. rewrite firstn_upd_last by lia.
      rewrite app_assoc, Ho, repeats_first_snoc. f_equal. f_equal. rewrite E.
      rewrite <- Zplus_mod_idemp_l, Hm, Z.add_0_l, Z.mod_small by lia.
      destruct (Z.eqb_spec (p_pos p) 0) as [Z0|N0]; [|auto]. destruct t; [auto|]. destruct Hf as [Hf _]; [discriminate|lia].
    + intros _. split; [lia|]. destruct t as [|x t].
      * cbn in E. pose proof (Z.mod_pos_bound (p_num p) 4096 ltac:(lia)).
        assert (p_pos p = 0) by (pose proof (Zle_0_nat (length (concat (p_out p)))); lia).
        rewrite H0. destruct (p_buf p); [cbn in Hb; lia|]. reflexivity.
      * destruct Hf as [Hf Hf0]; [discriminate|]. rewrite nth_error_upd_neq by lia. auto.
Qed.
Lemma add_loop_put f m str pp p : add_loop (S f) m str pp p =
  (do c <- ld m str; if negb (c =? 0) && (pp || negb (c =? 37)) then do p <- put c p; add_loop f m (str + 1) pp p else Ok (str, p)).
Proof.
  cbn [add_loop]. destruct (ld m str) as [c|]; cbn [bind]; auto. destruct (negb (c =? 0) && (pp || negb (c =? 37))); auto.
  unfold put. destruct (p_pos p >=? buffer_size); cbn [bind]; auto. destruct (int_op (p_num p + buffer_size)); cbn [bind]; auto.
Qed.
Lemma add_loop_ok m pp e : (e = 0 \/ (pp = false /\ e = 37)) -> forall s f str p t, wf_cstr s -> (pp = true \/ ~ In 37 s) -> bytes_at m str (s ++ [e]) -> (length s < f)%nat ->
  pinv p t -> zlen (t ++ s) <= INT_MAX -> exists p', add_loop f m str pp p = Ok (str + zlen s, p') /\ pinv p' (t ++ s).
Proof.
  intros He. induction s as [|c s IH]; intros f str p t W NP H F Hp L; (destruct f as [|f]; [cbn in F; lia|]); rewrite add_loop_put; cbn in H; rewrite (holds_ld _ _ _ (proj1 H)); cbn [bind].
  - replace (negb (e =? 0) && (pp || negb (e =? 37))) with false by (destruct He as [->|[-> ->]]; reflexivity).
    exists p. cbn. rewrite Z.add_0_r, app_nil_r. auto.
  - inversion W as [|? ? Hc W']; subst.
    replace (negb (c =? 0) && (pp || negb (c =? 37))) with true.
    2: { destruct (Z.eqb_spec c 0); [lia|]. cbn. destruct NP as [->|NP]; [auto|]. destruct (Z.eqb_spec c 37); [elim NP; left; auto|]. now rewrite orb_true_r. }
    rewrite app_length in L. cbn [length] in F, L |- *. destruct (put_ok c p t Hp) as (p1 & -> & Hp1); [lia|]. cbn [bind].
    destruct (IH f (str + 1) p1 (t ++ [c])) as (p2 & E & Hp2); auto; try lia.
    { destruct NP as [->|NP]; [auto|]. right. intros J. apply NP. right. auto. }
    { tauto. } { rewrite !app_length. cbn [length]. lia. }
    exists p2. rewrite E. split; [f_equal; f_equal; lia|]. rewrite <- app_assoc in Hp2. exact Hp2.
Qed.
Lemma add_str_ok m str s p t : str_at m str s -> pinv p t -> zlen (t ++ s) <= INT_MAX ->
  exists p', add_to_buffer m str true p = Ok (str + zlen s, p') /\ pinv p' (t ++ s).
Proof.
  intros H Hp L. apply (add_loop_ok m true 0); auto; try apply H. apply str_at_len in H. lia.
Qed.
Lemma literal_at s : wf_cstr s -> str_at (literal s) 0 s.
Proof.
  intros W. split; [auto|]. apply nth_bytes_at. intros i b E. split; [lia|]. rewrite Z.add_0_l, Nat2Z.id. unfold literal.
  change [Some 0] with (map (@Some Z) [0]). rewrite <- map_app, nth_error_map, E. reflexivity.
Qed.
Lemma print_lit_ok s p t : wf_cstr s -> pinv p t -> zlen (t ++ s) <= INT_MAX -> exists p', print_lit s p = Ok p' /\ pinv p' (t ++ s).
Proof.
  intros W Hp L. unfold print_lit. destruct (add_str_ok _ _ _ p t (literal_at s W) Hp L) as (p' & -> & H). cbn [bind]. eauto.
Qed.
Lemma print_num_ok (r : outcome (bytes * Z)) s p t : (exists m' n, r = Ok (m', n) /\ str_at m' 0 s) -> pinv p t -> zlen (t ++ s) <= INT_MAX ->
  exists p', print_num r p = Ok p' /\ pinv p' (t ++ s).
Proof.
  intros (m' & n & -> & H) Hp L. unfold print_num. cbn [bind]. destruct (add_str_ok _ _ _ p t H Hp L) as (p' & -> & H'). cbn [bind]. eauto.
Qed.

(** *** arguments *)
Lemma mod_add_mul v k n : 0 < n -> 0 <= v < n -> (v + k * n) mod n = v.
Proof. intros. rewrite Z_mod_plus_full. apply Z.mod_small. auto. Qed.
Lemma mod_mod_div a b c : 0 < b -> 0 < c -> (a mod (b * c)) mod b = a mod b.
Proof.
  intros B C. rewrite Z.rem_mul_r by lia. rewrite Z.mul_comm. rewrite Z_mod_plus_full. apply Z.mod_mod. lia.
Qed.
Lemma neg_mod v k n : 0 < n -> - n <= v < 0 -> (v + k * n) mod n = v + n.
Proof. intros. replace (v + k * n) with (v + n + (k - 1) * n) by lia. apply mod_add_mul; lia. Qed.
Lemma signed_arg_ok w a v : denotes_signed w a v -> signed_arg w a = v.
Proof.
  intros [R (k & ->)].
  assert (S32 : - 2147483648 <= v < 2147483648 -> forall j, s32 (v + j * two32) = v).
  { intros B j. unfold s32, two32. destruct (Z_lt_le_dec v 0).
    - rewrite neg_mod by lia. destruct (Z.ltb_spec (v + 4294967296) 2147483648); lia.
    - rewrite mod_add_mul by lia. destruct (Z.ltb_spec v 2147483648); lia. }
  assert (S64 : - 9223372036854775808 <= v < 9223372036854775808 -> forall j, s64 (v + j * two64) = v).
  { intros B j. unfold s64, two64. destruct (Z_lt_le_dec v 0).
    - rewrite neg_mod by lia. destruct (Z.ltb_spec (v + 18446744073709551616) 9223372036854775808); lia.
    - rewrite mod_add_mul by lia. destruct (Z.ltb_spec v 9223372036854775808); lia. }
  destruct w; cbn in R; cbn [signed_arg width_bits].
  - apply S32. lia.
  - change (2 ^ 8) with 256. unfold s8.
    assert (M : s32 (v + k * 256) mod 256 = (v + k * 256) mod 256).
    { unfold s32, two32. cbv zeta. destruct (Z.ltb_spec ((v + k * 256) mod 4294967296) 2147483648).
      - apply (mod_mod_div _ 256 16777216); lia.
      - replace ((v + k * 256) mod 4294967296 - 4294967296) with ((v + k * 256) mod 4294967296 + (-16777216) * 256) by lia.
        rewrite Z_mod_plus_full. apply (mod_mod_div _ 256 16777216); lia. }
    rewrite M. destruct (Z_lt_le_dec v 0).
    + rewrite neg_mod by lia. cbv zeta. destruct (Z.ltb_spec (v + 256) 128); lia.
    + rewrite mod_add_mul by lia. cbv zeta. destruct (Z.ltb_spec v 128); lia.
  - change (2 ^ 16) with 65536. unfold s16.
    assert (M : s32 (v + k * 65536) mod 65536 = (v + k * 65536) mod 65536).
    { unfold s32, two32. cbv zeta. destruct (Z.ltb_spec ((v + k * 65536) mod 4294967296) 2147483648).
      - apply (mod_mod_div _ 65536 65536); lia.
      - replace ((v + k * 65536) mod 4294967296 - 4294967296) with ((v + k * 65536) mod 4294967296 + (-65536) * 65536) by lia.
        rewrite Z_mod_plus_full. apply (mod_mod_div _ 65536 65536); lia. }
    rewrite M. destruct (Z_lt_le_dec v 0).
    + rewrite neg_mod by lia. cbv zeta. destruct (Z.ltb_spec (v + 65536) 32768); lia.
    + rewrite mod_add_mul by lia. cbv zeta. destruct (Z.ltb_spec v 32768); lia.
  - apply S64. lia.
  - apply S64. lia.
  - apply S64. lia.
Qed.
Lemma unsigned_arg_ok w a v : denotes_unsigned w a v -> unsigned_arg w a = v.
Proof.
  intros [R (k & ->)]. destruct w; cbn in R; cbn [unsigned_arg width_bits].
  - unfold u32, two32. apply mod_add_mul; lia.
  - change (2 ^ 8) with 256. unfold u32, two32. change 4294967296 with (256 * 16777216). rewrite mod_mod_div by lia. apply mod_add_mul; lia.
  - change (2 ^ 16) with 65536. unfold u32, two32. change 4294967296 with (65536 * 65536). rewrite mod_mod_div by lia. apply mod_add_mul; lia.
  - unfold u64, two64. apply mod_add_mul; lia.
  - unfold u64, two64. apply mod_add_mul; lia.
  - change (2 ^ 64) with two64. unfold u64, s64. cbv zeta. rewrite mod_add_mul by (unfold two64; lia).
    destruct (v <? 9223372036854775808); [apply Z.mod_small; unfold two64; lia|].
    replace (v - two64) with (v + (-1) * two64) by lia. apply mod_add_mul; unfold two64; lia.
Qed.
Lemma signed_range w a v : denotes_signed w a v -> - 9223372036854775808 <= v <= 9223372036854775807.
Proof. intros [R _]. destruct w; cbn in R; lia. Qed.
Lemma unsigned_range w a v : denotes_unsigned w a v -> 0 <= v < two64.
Proof. intros [R _]. unfold two64. destruct w; cbn in R; lia. Qed.

(** *** directives *)
Lemma print_signed v s p t : - 9223372036854775808 < v <= 9223372036854775807 -> decimal v s -> pinv p t -> zlen (t ++ s) <= INT_MAX ->
  exists p', print_num (slong_to_str (local 64) v 0 64) p = Ok p' /\ pinv p' (t ++ s).
Proof.
  intros R D Hp L. apply print_num_ok; auto.
  destruct (slong_to_str_ok (local 64) v 0 64 s) as [H _]; auto. { apply local_accessible. }
  destruct H as (m' & E & S & _); [|eauto]. unfold fits_in. destruct (Z.eqb_spec v 0) as [_|_]; [lia|].
  destruct D as (ds & C & ->). pose proof (canonical_len10 10 (Z.abs v) ds ltac:(lia) C ltac:(unfold two64; lia)).
  rewrite app_length, map_length. destruct (v <? 0); cbn [length]; lia.
Qed.
Lemma print_unsigned v s p t : 0 <= v < two64 -> decimal v s -> pinv p t -> zlen (t ++ s) <= INT_MAX ->
  exists p', print_num (ulong_to_str (local 64) v 0 64) p = Ok p' /\ pinv p' (t ++ s).
Proof.
  intros R D Hp L. apply print_num_ok; auto.
  destruct (ulong_to_str_ok (local 64) v 0 64 s) as [H _]; auto. { apply local_accessible. }
  destruct H as (m' & E & S & _); [|eauto]. unfold fits_in. destruct (Z.eqb_spec v 0) as [_|_]; [lia|].
  destruct D as (ds & C & ->). pose proof (canonical_len10 10 (Z.abs v) ds ltac:(lia) C ltac:(lia)).
  rewrite app_length, map_length. destruct (v <? 0); cbn [length]; lia.
Qed.
Lemma print_hex v u s p t : 0 <= v < two64 -> hexadecimal u v s -> pinv p t -> zlen (t ++ s) <= INT_MAX ->
  exists p', print_num (ulong_to_hexstr (local 64) v 0 64 u) p = Ok p' /\ pinv p' (t ++ s).
Proof.
  intros R D Hp L. apply print_num_ok; auto.
  destruct (ulong_to_hexstr_ok (local 64) v 0 64 u s) as [H _]; auto. { apply local_accessible. }
  destruct H as (m' & E & S & _); [|eauto]. unfold fits_in. destruct (Z.eqb_spec v 0) as [_|_]; [lia|].
  destruct D as (ds & C & ->). pose proof (canonical_len10 16 v ds ltac:(lia) C ltac:(lia)).
  rewrite map_length. lia.
Qed.

(** *** the loop *)
(** the result of a completed call that printed [t] *)
Definition printed (t : cstr) (r : outcome (list (list Z) * Z)) : Prop :=
  exists calls, r = Ok (calls, zlen t) /\ pieces (repeats_first t) calls.
Lemma finish_ok p t : pinv p t -> zlen t <= INT_MAX -> printed t (finish p).
Proof.
  intros H L. pose proof (pinv_len _ _ H) as E. unfold finish. rewrite int_op_ok by (unfold INT_MIN; lia). cbn [bind].
  eexists. split; [f_equal; f_equal; lia|]. pose proof (pi_buf _ _ H). pose proof (pi_pos _ _ H). split.
  - rewrite concat_app. cbn [concat]. rewrite app_nil_r. apply (pi_out _ _ H).
  - eexists; eexists. split; [reflexivity|]. split; [apply (pi_full _ _ H)|]. rewrite firstn_length. split; [lia|].
    intros N K. apply (pi_rest _ _ H) in N. apply (f_equal (@length Z)) in K. rewrite firstn_length in K. cbn in K. lia.
Qed.
(** what happens after '%' at [str] *)
Definition conv_at (f : nat) (m : bytes) (args : list Z) (p : pstate) (w : width) (str c : Z) : outcome (list (list Z) * Z) :=
  do ' (args, p) <- convert m c w args p; inc m str (finish p) (fun str _ => printf_loop f m str args p).
Definition after_percent (f : nat) (m : bytes) (str : Z) (args : list Z) (p : pstate) : outcome (list (list Z) * Z) :=
  inc m str (finish p) (fun str c =>
    let conv (w : width) (str c : Z) := conv_at f m args p w str c in
    if c =? 104 then
      do d <- ld m (str + 1);
      if d =? 104 then inc m str (finish p) (fun str c => inc m str (finish p) (fun str c => conv WChar str c))
      else inc m str (finish p) (fun str c => conv WShort str c)
    else if c =? 108 then
      do d <- ld m (str + 1);
      if d =? 108 then inc m str (finish p) (fun str c => inc m str (finish p) (fun str c => conv WLongLong str c))
      else inc m str (finish p) (fun str c => conv WLong str c)
    else if c =? 122 then inc m str (finish p) (fun str c => conv WSize str c)
    else conv WNone str c).
Lemma printf_loop_eq f m str args p : printf_loop (S f) m str args p =
  (do c <- ld m str;
   if c =? 0 then finish p
   else do ' (str, p) <- add_to_buffer m str false p;
        do c <- ld m str; if c =? 0 then finish p else if negb (c =? 37) then Fault AssertFailed else after_percent f m str args p).
Proof. reflexivity. Qed.
Lemma inc_go {A} m str (dn : outcome A) k c : holds m (str + 1) c -> c <> 0 -> inc m str dn k = k (str + 1) c.
Proof. intros H N. unfold inc. rewrite (holds_ld _ _ _ H). cbn [bind]. destruct (Z.eqb_spec c 0); [congruence|auto]. Qed.
Lemma inc_end {A} m str (dn : outcome A) k : holds m (str + 1) 0 -> inc m str dn k = dn.
Proof. intros H. unfold inc. rewrite (holds_ld _ _ _ H). reflexivity. Qed.
Lemma after_percent_ok f m str args p w c r : bytes_at m str (37 :: width_chars w ++ c :: r) -> c <> 0 -> modifier w c ->
  after_percent f m str args p = conv_at f m args p w (str + 1 + zlen (width_chars w)) c.
Proof.
  intros H N0 M. unfold after_percent.
  destruct w; cbn [width_chars app bytes_at length modifier] in H, M |- *; decompose [and] H; clear H.
  all: repeat (erewrite inc_go by (eauto; lia || auto); cbv beta).
  all: repeat match goal with |- context [?x =? ?y] => destruct (Z.eqb_spec x y); try congruence; try lia end.
  all: repeat match goal with K : holds ?q ?a ?b |- context [ld ?q ?a] => rewrite (holds_ld _ _ _ K); cbn [bind] end.
  all: repeat match goal with |- context [?x =? ?y] => destruct (Z.eqb_spec x y); try congruence; try lia end.
  all: repeat (erewrite inc_go by (eauto; lia || auto); cbv beta).
  all: f_equal; lia.
Qed.
Lemma after_percent_cut f m str args p w : bytes_at m str (37 :: width_chars w ++ [0]) ->
  after_percent f m str args p = finish p.
Proof.
  intros H. unfold after_percent.
  destruct w; cbn [width_chars app bytes_at length] in H |- *; decompose [and] H; clear H.
  all: repeat first [rewrite inc_end by (assumption || (rewrite <- ?Z.add_assoc in *; assumption)); reflexivity
                    |erewrite inc_go by (eauto; lia || auto); cbv beta; cbn [Z.eqb Pos.eqb]
                    |match goal with K : holds ?q ?a ?b |- context [ld ?q ?a] => rewrite (holds_ld _ _ _ K); cbn [bind Z.eqb Pos.eqb] end].
Qed.
Lemma writes_lit m fmt args out : writes m fmt args out -> exists l f' out', fmt = l ++ f' /\ out = l ++ out' /\ ~ In 37 l /\
  writes m f' args out' /\ (f' = [] \/ exists g, f' = 37 :: g).
Proof.
  intros E. induction E as [args|c f args out N E (l & f' & out' & -> & -> & NI & E' & H)|w args|w c f args args' s out M D E IH].
  2: { exists (c :: l), f', out'. repeat split; auto. intros [J|J]; auto. }
  all: exists [].
  { exists [], []. repeat split; auto. constructor. }
  all: eexists; eexists; (split; [reflexivity|]); (split; [reflexivity|]); (split; [intros []|]); (split; [econstructor; eassumption|right; eexists; reflexivity]).
Qed.
(** a conversion prints what [directive] says *)
Lemma convert_ok m w c args args' s p t : directive m w c args args' s -> wf_cstr [c] -> pinv p t -> zlen (t ++ s) <= INT_MAX ->
  exists p', convert m c w args p = Ok (args', p') /\ pinv p' (t ++ s).
Proof.
  intros D W Hq Lq. destruct D as [c a v s args Hc Hd Nm Dv|a v s args Hd Dv|c a v s args Hc Hd Dv|a v s args Hd Dv|a c args Rc Ka|k args|a s args Sa|args|c args No].
  - unfold convert. replace ((c =? 100) || (c =? 105)) with true by (destruct Hc as [-> | ->]; reflexivity). cbn [va_slot bind].
    rewrite (signed_arg_ok _ _ _ Hd). destruct (print_signed v s p t) as (q' & -> & Hq'); auto; [|cbn [bind]; eauto].
    pose proof (signed_range _ _ _ Hd). change (- 2 ^ 63) with (-9223372036854775808) in Nm. lia.
  - unfold convert. cbn [Z.eqb Pos.eqb orb va_slot bind].
    rewrite (unsigned_arg_ok _ _ _ Hd). destruct (print_unsigned v s p t) as (q' & -> & Hq'); auto; [|cbn [bind]; eauto]. eapply unsigned_range; eauto.
  - assert (exists q', print_num (ulong_to_hexstr (local 64) (unsigned_arg w a) 0 64 (c =? 88)) p = Ok q' /\ pinv q' (t ++ s)) as (q' & E & Hq').
    { rewrite (unsigned_arg_ok _ _ _ Hd). apply print_hex; auto. eapply unsigned_range; eauto. }
    unfold convert. destruct Hc as [-> | ->]; cbn [Z.eqb Pos.eqb orb va_slot bind negb] in *; rewrite E; cbn [bind]; eauto.
  - unfold convert. cbn [Z.eqb Pos.eqb orb va_slot bind negb].
    rewrite app_length in Lq. cbn [length] in Lq.
    destruct (print_lit_ok [48; 120] p t) as (q1 & -> & Hq1); auto; [repeat constructor; lia|rewrite app_length; cbn [length]; lia|]. cbn [bind].
    pose proof (unsigned_arg_ok _ _ _ Hd) as Eu. cbn [unsigned_arg] in Eu. rewrite Eu.
    destruct (print_hex v false s q1 (t ++ [48; 120])) as (q2 & -> & Hq2); auto; [eapply unsigned_range; eauto|rewrite !app_length; cbn [length]; lia|]. cbn [bind].
    rewrite <- app_assoc in Hq2. eauto.
  - unfold convert. cbn [Z.eqb Pos.eqb orb va_slot bind].
    destruct Ka as (k & ->). replace (u32 (c + k * 256) mod 256) with c.
    2: { unfold u32, two32. change 4294967296 with (256 * 16777216). rewrite mod_mod_div by lia. symmetry. apply mod_add_mul; lia. }
    destruct (add_str_ok (literal [c]) 0 [c] p t) as (q' & E & Hq'); auto; [apply literal_at; constructor; [lia|constructor]|].
    unfold literal in E. cbn [map app] in E. rewrite E. cbn [bind]. eauto.
  - unfold convert. cbn [Z.eqb Pos.eqb orb va_slot bind].
    replace (u32 (k * 256) mod 256) with 0.
    2: { unfold u32, two32. change 4294967296 with (256 * 16777216). rewrite mod_mod_div by lia. symmetry. apply Z.mod_mul. lia. }
    exists p. rewrite app_nil_r. split; [reflexivity|exact Hq].
  - unfold convert. cbn [Z.eqb Pos.eqb orb va_slot bind].
    destruct (add_str_ok m a s p t) as (q' & -> & Hq'); auto. cbn [bind]. eauto.
  - unfold convert. cbn [Z.eqb Pos.eqb orb].
    destruct (print_lit_ok [37] p t) as (q' & -> & Hq'); auto. cbn [bind]. eauto.
  - cbn [In] in No. unfold convert.
    repeat match goal with |- context [c =? ?y] => destruct (Z.eqb_spec c y); [elim No; subst; tauto|] end. cbn [orb].
    destruct (print_lit_ok [37; c] p t) as (q' & -> & Hq'); auto; [constructor; [lia|exact W]|]. cbn [bind]. eauto.
Qed.
Definition loop_ok (m : bytes) (f : nat) : Prop := forall fmt str args p t out, wf_cstr fmt -> bytes_at m str (fmt ++ [0]) -> writes m fmt args out ->
  (length fmt < f)%nat -> pinv p t -> zlen (t ++ out) <= INT_MAX ->
  printed (t ++ out) (printf_loop f m str args p).
Lemma writes_nil m args out : writes m [] args out -> out = [].
Proof. intros X. inversion X. reflexivity. Qed.
Lemma conv_at_ok m f w c args p args' p1 t1 str g out : loop_ok m f -> convert m c w args p = Ok (args', p1) -> pinv p1 t1 ->
  wf_cstr g -> bytes_at m (str + 1) (g ++ [0]) -> writes m g args' out -> (length g < f)%nat -> zlen (t1 ++ out) <= INT_MAX ->
  printed (t1 ++ out) (conv_at f m args p w str c).
Proof.
  intros IH E Hp W H X F L. unfold conv_at. rewrite E. cbn [bind]. destruct g as [|d g].
  - apply writes_nil in X. subst out. cbn in H. rewrite inc_end by apply H. rewrite app_nil_r in *. apply finish_ok; auto.
  - rewrite (inc_go _ _ _ _ d); [|apply H|inversion W; lia]. apply (IH (d :: g)); auto.
Qed.
Lemma printf_loop_ok m : forall f, loop_ok m f.
Proof.
  induction f as [|f IH]; intros fmt str args p t out W H X F Hp L; [lia|]. rewrite printf_loop_eq.
  destruct fmt as [|c0 fmt0] eqn:EF.
  - apply writes_nil in X. subst out. cbn in H. rewrite (holds_ld _ _ _ (proj1 H)). cbn [bind Z.eqb]. rewrite app_nil_r in *. apply finish_ok; auto.
  - assert (Hc0 : holds m str c0) by apply H. rewrite (holds_ld _ _ _ Hc0). cbn [bind].
    destruct (Z.eqb_spec c0 0) as [->|N0]; [inversion W; lia|]. rewrite <- EF in *. clear EF Hc0 N0 c0 fmt0.
    destruct (writes_lit _ _ _ _ X) as (l & f' & out' & -> & -> & NI & X' & Hf).
    apply wf_app in W as [Wl Wf]. rewrite app_length in F. rewrite <- app_assoc in H. apply bytes_at_app in H as [Hl Hr].
    rewrite app_assoc in L.
    assert (Ll : zlen (t ++ l) <= INT_MAX) by (rewrite app_length in L; lia).
    destruct Hf as [->|(g & ->)].
    + apply writes_nil in X'. subst out'. rewrite !app_nil_r in *. cbn [app] in Hr.
      destruct (add_loop_ok m false 0 (or_introl eq_refl) l (S (length m)) str p t) as (p1 & E1 & Hp1); auto.
      { apply bytes_at_app. auto. }
      { apply (bytes_at_bound m (str + zlen l) [0]) in Hr; [|discriminate]. destruct l as [|x l]; [cbn; lia|].
        apply bytes_at_bound in Hl; [|discriminate]. lia. }
      unfold add_to_buffer. rewrite E1. cbn [bind]. rewrite (holds_ld _ _ _ (proj1 Hr)). cbn [bind Z.eqb]. apply finish_ok; auto.
    + cbn [app] in Hr. assert (Hp37 : holds m (str + zlen l) 37) by apply Hr.
      destruct (add_loop_ok m false 37 (or_intror (conj eq_refl eq_refl)) l (S (length m)) str p t) as (p1 & E1 & Hp1); auto.
      { apply bytes_at_app. cbn. auto. }
      { apply holds_lt in Hp37. destruct l as [|x l]; [cbn; lia|]. apply bytes_at_bound in Hl; [|discriminate]. lia. }
      unfold add_to_buffer. rewrite E1. cbn [bind]. rewrite (holds_ld _ _ _ Hp37). cbn [bind Z.eqb Pos.eqb negb].
      rewrite app_assoc. set (t1 := t ++ l) in *. set (a1 := str + zlen l) in *. clearbody t1 a1. clear Hl E1 Hp37 X Hp Wl NI str p.
      (* the directive *)
      inversion X' as [|? ? ? ? N37 _|w args0|w c r args0 args' s o M D Xr]; subst; try congruence.
      * rewrite (after_percent_cut f m a1 args p1 w Hr). rewrite app_nil_r in *. apply finish_ok; auto.
      * assert (Hr' := Hr). rewrite <- app_assoc in Hr'. cbn [app] in Hr'.
        inversion Wf as [|? ? _ W2]; subst. apply wf_app in W2 as [_ W2]. assert (Wc : wf_cstr [c]) by (inversion W2; subst; repeat constructor; lia).
        assert (W0 : c <> 0) by (inversion Wc; lia).
        rewrite (after_percent_ok f m a1 args p1 w c _ Hr' W0 M).
        rewrite app_assoc in L |- *. destruct (convert_ok m w c args args' s p1 t1 D Wc Hp1) as (p2 & Ec & Hp2); [rewrite app_length in L; lia|].
        apply (conv_at_ok m f w c args p1 args' p2 (t1 ++ s) _ r o); auto.
        -- inversion W2; subst; assumption.
        -- change (37 :: width_chars w ++ c :: r ++ [0]) with ((37 :: width_chars w) ++ [c] ++ r ++ [0]) in Hr'.
          apply bytes_at_app in Hr' as [_ Hr']. cbn [app bytes_at] in Hr'.
          replace (a1 + 1 + zlen (width_chars w) + 1) with (a1 + zlen (37 :: width_chars w) + 1) by (cbn [length]; lia). apply Hr'.
        -- cbn [length] in F. rewrite app_length in F. cbn [length] in F. lia.
Qed.
(** what a format should yield is what the code makes of it *)
Lemma expands_writes m fmt args out : expands m fmt args out -> writes m fmt args out.
Proof.
  intros X. induction X as [args|c f args out N E IH|f args out E IH|w c a v s f args out Hc Hd Nm Dv E IH|w a v s f args out Hd Dv E IH|w c a v s f args out Hc Hd Dv E IH|a s f args out Ra Dv E IH|a c f args out Rc Ka E IH|a s f args out Sa E IH].
  - constructor.
  - constructor; auto.
  - apply (WrDir m WNone 37 f args args [37] out); auto; [repeat split; lia|apply DPercent].
  - apply (WrDir m w c f (a :: args) args s out); auto; [destruct w, Hc as [-> | ->]; cbn; repeat split; lia|eapply DSigned; eauto].
  - apply (WrDir m w 117 f (a :: args) args s out); auto; [destruct w; cbn; repeat split; lia|eapply DUnsigned; eauto].
  - apply (WrDir m w c f (a :: args) args s out); auto; [destruct w, Hc as [-> | ->]; cbn; repeat split; lia|eapply DHex; eauto].
  - apply (WrDir m WNone 112 f (a :: args) args (48 :: 120 :: s) out); auto; [cbn; repeat split; lia|].
    apply (DPointer m WNone a a s); auto. split; [exact Ra|exists 0; lia].
  - apply (WrDir m WNone 99 f (a :: args) args [c] out); auto; [cbn; repeat split; lia|apply DCharArg; auto].
  - apply (WrDir m WNone 115 f (a :: args) args s out); auto; [cbn; repeat split; lia|apply DString; auto].
Qed.
Lemma printf_ok m format fmt args buf out : str_at m format fmt -> writes m fmt args out -> zlen buf = 4096 -> zlen out <= INT_MAX ->
  printed out (gotcha_int_printf m format args buf).
Proof.
  intros H X B L. unfold gotcha_int_printf.
  apply (printf_loop_ok m (S (length m)) fmt format args (mkP 0 buf 0 []) [] out); auto; try apply H.
  - apply str_at_len in H. lia.
  - apply pinv_start. auto.
Qed.
Lemma repeats_first_small t : zlen t <= 4096 -> repeats_first t = t.
Proof.
  induction t as [|c t IH] using rev_ind; [reflexivity|]. intros L. rewrite app_length in L. cbn [length] in L.
  rewrite repeats_first_snoc, IH by lia. f_equal. f_equal. rewrite Z.mod_small by lia.
  destruct (Z.eqb_spec (zlen t) 0); [|auto]. destruct t; [auto|cbn [length] in *; lia].
Qed.
