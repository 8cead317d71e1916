(** Laws about the internal libc functions where properties C42, C43, C46, C48, C51 and C56 fail: what the code does
    for every input.  Further properties: C62 (messages of failed assertions) and C63 (gotcha_open). *)
From Verif Require Import Base ListFacts LibcModel SpecLibc LibcProofs LibcProofs2 LibcProofs3 LibcProofs4 PropsLibc.
From Coq Require String.
Import String.StringSyntax.
Open Scope string_scope.
Open Scope list_scope.
Open Scope Z_scope.

(** *** C42 *)
(** The result for strings that differ after the common part [u]: 1 if the first one ends there, otherwise the
    difference of the next characters, taken as signed (0 at the end of the second string). *)
Theorem C42_value_law : forall m p q u s t, str_at m p (u ++ s) -> str_at m q (u ++ t) -> short (u ++ s) ->
  match s, t with
  | [], [] => gotcha_strcmp m p q = Ok 0
  | [], _ :: _ => gotcha_strcmp m p q = Ok 1
  | a :: _, [] => gotcha_strcmp m p q = Ok (if a <? 128 then a else a - 256)
  | a :: _, b :: _ => a <> b -> gotcha_strcmp m p q = Ok ((if a <? 128 then a else a - 256) - (if b <? 128 then b else b - 256))
  end.
Proof.
  intros m p q u s t H K L. rewrite (strcmp_ok _ _ _ _ _ H K L), cmp_val_app. destruct s as [|a s], t as [|b t]; cbn; auto.
  intros N. destruct (Z.eqb_spec a b); [contradiction|]. reflexivity.
Qed.
Print Assumptions C42_value_law.
(** So the sign is wrong for every proper prefix, and for every pair whose first difference, or end, is one between
    a byte above 127 and one below. *)
Theorem C42_sign_law : forall m p q u s t, str_at m p (u ++ s) -> str_at m q (u ++ t) -> short (u ++ s) ->
  match s, t with
  | [], _ :: _ => exists r, gotcha_strcmp m p q = Ok r /\ r > 0 /\ libc_strcmp (u ++ s) (u ++ t) < 0
  | a :: _, [] => 127 < a -> exists r, gotcha_strcmp m p q = Ok r /\ r < 0 /\ libc_strcmp (u ++ s) (u ++ t) > 0
  | a :: _, b :: _ => (a < 128 <= b \/ b < 128 <= a) ->
      exists r, gotcha_strcmp m p q = Ok r /\ Z.sgn r = - libc_strcmp (u ++ s) (u ++ t) /\ r <> 0
  | [], [] => True
  end.
Proof.
  intros m p q u s t H K L. pose proof (C42_value_law m p q u s t H K L) as V.
  assert (E : libc_strcmp (u ++ s) (u ++ t) = libc_strcmp s t) by (clear; induction u as [|a u IH]; [auto|cbn; now rewrite Z.eqb_refl]).
  assert (Ws : Forall (fun c => 1 <= c <= 255) s) by (destruct H as [W _]; apply wf_app in W; apply W). assert (Wt : Forall (fun c => 1 <= c <= 255) t) by (destruct K as [W _]; apply wf_app in W; apply W).
  rewrite E. destruct s as [|a s], t as [|b t]; auto; cbn [libc_strcmp].
  - exists 1. split; [exact V|lia].
  - intros A. eexists. split; [exact V|]. pose proof (Forall_inv Ws) as R. cbn in R. destruct (Z.ltb_spec a 128); lia.
  - intros D. assert (N : a <> b) by lia. eexists. split; [exact (V N)|]. pose proof (Forall_inv Ws) as R. pose proof (Forall_inv Wt) as R'. cbn in R, R'.
    destruct (Z.eqb_spec a b); [contradiction|]. destruct (Z.ltb_spec a 128), (Z.ltb_spec b 128), (Z.ltb_spec a b); lia.
Qed.
Print Assumptions C42_sign_law.
Example C42_law_ex : str_at (two_strings (lit "lib" ++ [195]) (lit "libc")) 0 (lit "lib" ++ [195]) /\
  str_at (two_strings (lit "lib" ++ [195]) (lit "libc")) 5 (lit "lib" ++ lit "c").
Proof. split; str. Qed.

(** *** C43: an empty needle is never found *)
Theorem C43_empty_law : forall m hay needle, str_at m needle [] -> gotcha_strstr m hay needle = Ok None.
Proof. intros m hay needle [_ H]. unfold gotcha_strstr. cbn in H. rewrite (holds_ld _ _ _ (proj1 H)). reflexivity. Qed.
Print Assumptions C43_empty_law.

(** *** C46: LONG_MIN, any buffer *)
Theorem C46_long_min_law : forall m str strlen, slong_to_str m LONG_MIN str strlen = Fault SignedOverflow.
Proof. reflexivity. Qed.
Print Assumptions C46_long_min_law.

(** *** C48 *)
(** What is printed for every format, also with directives unknown, incomplete or with the NUL character *)
Theorem C48_all_formats_law : forall m format fmt args buf out, str_at m format fmt -> writes m fmt args out -> zlen buf = 4096 ->
  zlen out <= INT_MAX -> exists calls, gotcha_int_printf m format args buf = Ok (calls, zlen out) /\ pieces (repeats_first out) calls.
Proof. exact printf_ok. Qed.
Print Assumptions C48_all_formats_law.
(** no format is left out, if there are enough arguments, all good for any directive *)
Theorem C48_formats_covered : forall m fmt args, (length fmt <= length args)%nat ->
  (forall a, In a args -> (exists s, str_at m a s) /\ a mod 2 ^ 64 <> 2 ^ 63) -> exists out, writes m fmt args out.
Proof. intros m fmt args L H. apply (writes_total m (length fmt)); auto. Qed.
Print Assumptions C48_formats_covered.
(** what is written is unique *)
Theorem C48_pieces_unique : forall s c1 c2, pieces s c1 -> pieces s c2 -> c1 = c2.
Proof. exact pieces_unique. Qed.
Definition odd_fmt : cstr := lit "%lc%hs%5d%hhh%q%z".
Definition odd_mem : bytes := image [odd_fmt; lit "wrap"].
Example C48_odd : str_at odd_mem 0 odd_fmt /\ writes odd_mem odd_fmt [256; 18] (lit "wrap%5d%h%q").
Proof.
  split; [str|].
  match goal with |- writes ?m ?f ?a ?o => let f' := eval vm_compute in f in let o' := eval vm_compute in o in change (writes m f' a o') end.
  apply (WrDir _ WLong 99 _ [256; 18] [18] []); [cbn; repeat split; lia|apply (DNul _ _ 1)|].
  apply (WrDir _ WShort 115 _ [18] [] (lit "wrap")); [cbn; repeat split; lia|apply DString; str|].
  apply (WrDir _ WNone 53 _ [] [] [37; 53]); [cbn; repeat split; lia|apply DOther; cbn; intuition lia|]. apply WrChar; [lia|].
  apply (WrDir _ WChar 104 _ [] [] [37; 104]); [cbn; repeat split; lia|apply DOther; cbn; intuition lia|].
  apply (WrDir _ WNone 113 _ [] [] [37; 113]); [cbn; repeat split; lia|apply DOther; cbn; intuition lia|].
  apply (WrCut _ WSize).
Qed.
Example C48_odd_run : gotcha_int_printf odd_mem 0 [256; 18] (repeat 0 (64 * 64)) = Ok ([lit "wrap%5d%h%q"], 11).
Proof. vm_compute. reflexivity. Qed.
(** The result of write is ignored: what the kernel does not take is lost, and the return value counts it. *)
Theorem C48_short_write_law : forall m format fmt args buf out k, str_at m format fmt -> expands m fmt args out -> zlen buf = 4096 ->
  zlen out <= 4096 -> exists calls, gotcha_int_printf m format args buf = Ok (calls, zlen out) /\ received [k] calls = firstn k out.
Proof.
  intros m format fmt args buf out k H X B L. exists [out]. split; [apply (C48_printf_partial m format fmt); auto|]. cbn. apply app_nil_r.
Qed.
Print Assumptions C48_short_write_law.
Theorem C48_short_write_refuted : exists m format fmt args buf out ks calls n, str_at m format fmt /\ expands m fmt args out /\
  gotcha_int_printf m format args buf = Ok (calls, n) /\ received ks calls <> out /\ n = zlen out.
Proof.
  exists (image [lit "ab"]), 0, (lit "ab"), [], (repeat 0 (64 * 64)), (lit "ab"), [1%nat], [lit "ab"], 2. split; [str|].
  split; [apply ExChar; [vm_compute; discriminate|]; apply ExChar; [vm_compute; discriminate|]; constructor|]. split; [vm_compute; reflexivity|]. split; [vm_compute; discriminate|reflexivity].
Qed.
Print Assumptions C48_short_write_refuted.

(** *** C51 *)
(** strnlen on an array filled to the end reads the byte behind it *)
Theorem C51_strnlen_law : forall m p n s, wf_cstr s -> zlen s = n -> bytes_at m p s -> (forall b, ~ holds m (p + n) b) ->
  gotcha_strnlen m p n = Fault OutOfBounds.
Proof. exact strnlen_over. Qed.
Print Assumptions C51_strnlen_law.
Example C51_strnlen_law_ex : bytes_at [Some 97; Some 98; None] 0 (lit "ab") /\ forall b, ~ holds [Some 97; Some 98; None] (0 + 2) b.
Proof. split; [apply bytes_atb_ok; reflexivity|]. intros b [_ H]. discriminate. Qed.
(** strncat with [n] above the length of the source reads and writes [n] bytes; if they are accessible, the string
    is right but all that follows it is overwritten *)
Theorem C51_strncat_law : forall m dest src n d s, str_at m dest d -> str_at m src s -> zlen s < n ->
  (src + n <= dest \/ dest + zlen d + n <= src) ->
  if_accessible m (dest + zlen d) src n (gotcha_strncat m dest src n) (fun m' =>
    str_at m' dest (d ++ s) /\ same_but m m' (dest + zlen d) n /\
    forall i b, 0 <= i < n -> holds m (src + i) b -> holds m' (dest + zlen d + i) (b mod 256)).
Proof. exact strncat_over. Qed.
Print Assumptions C51_strncat_law.
(** the "x" after the place needed is overwritten *)
Example C51_strncat_law_ex : let m := literal (lit "a") ++ repeat (Some 120) 4 ++ literal (lit "b") ++ repeat (Some 121) 3 in
  str_at m 0 (lit "a") /\ str_at m 6 (lit "b") /\ exists m', gotcha_strncat m 0 6 5 = Ok m' /\ str_at m' 0 (lit "ab") /\ nth_error m 5 = Some (Some 120) /\ nth_error m' 5 = Some (Some 121).
Proof.
  cbv zeta. split; [str|]. split; [str|]. eexists. split; [vm_compute; reflexivity|]. split; [str|]. split; reflexivity.
Qed.

(** *** C56: a first setting with ten digits or more *)
Theorem C56_overflow_law : forall m envp env p before e value after signs ds rest, env_at m envp env -> str_at m p (lit "GOTCHA_DEBUG") ->
  env = before ++ e :: after -> sets (lit "GOTCHA_DEBUG") value e ->
  (forall e' v, In e' before -> ~ sets (lit "GOTCHA_DEBUG") v e') -> int_form value signs ds rest -> (10 <= length ds)%nat ->
  debug_init m envp p (false, 0) = Fault SignedOverflow.
Proof.
  intros m envp env p before e value after signs ds rest E H Ee Se Nb F L.
  destruct (C44_getenv m envp env p _ E H) as [(b1 & e1 & v1 & a1 & r & Ee1 & Se1 & Nb1 & R & V & _)|(NB & _)]; [vm_compute; discriminate| |].
  - assert (b1 = before /\ e1 = e) as [-> ->].
    { rewrite Ee1 in Ee. clear - Ee Se Se1 Nb Nb1. revert before Ee Nb. induction b1 as [|x b1 IH]; intros [|y before] Q Nb'; cbn in Q.
      - injection Q as -> _. auto.
      - injection Q as -> _. elim (Nb' y v1); auto. left. auto.
      - injection Q as -> _. elim (Nb1 e value); auto. left. auto.
      - injection Q as -> Q. destruct (IH ltac:(intros; eapply Nb1; right; eauto) before Q ltac:(intros; eapply Nb'; right; eauto)) as [-> ->]. auto. }
    assert (v1 = value) as ->. { unfold sets in *. rewrite Se in Se1. apply app_inv_head in Se1. congruence. }
    unfold debug_init. rewrite R. cbn [bind]. rewrite (C45_ten_digits_overflow m r value signs ds rest V F L). reflexivity.
  - elim (NB e value); auto. subst env. apply in_or_app. right. left. auto.
Qed.
Print Assumptions C56_overflow_law.
Example C56_overflow_ex : sets (lit "GOTCHA_DEBUG") (lit "0000000001") (lit "GOTCHA_DEBUG=0000000001") /\ int_form (lit "0000000001") 0 [0; 0; 0; 0; 0; 0; 0; 0; 0; 1] [].
Proof. split; [reflexivity|]. split; [reflexivity|]. split; [repeat constructor; lia|discriminate]. Qed.

(** *** C62 *)
Lemma read_bytes_ok : forall l m p, bytes_at m p l -> read_bytes (length l) m p = Ok l.
Proof. induction l as [|b l IH]; intros m p H; [reflexivity|]. destruct H as [H K]. cbn. rewrite (holds_ld _ _ _ H). cbn [bind]. now rewrite IH. Qed.
Lemma write_str_ok m p s : str_at m p s -> write_str m p = Ok s.
Proof.
  intros H. unfold write_str. rewrite (strlen_ok _ _ _ H). cbn [bind]. rewrite Nat2Z.id. apply read_bytes_ok. destruct H as [_ H]. apply bytes_at_app in H. tauto.
Qed.
(** A failed assertion prints  file:line: function: Assertion `s' failed.  *)
Theorem C62_message : forall m s file line function expr fname func num, str_at m s expr -> str_at m file fname -> str_at m function func ->
  0 <= line < 2 ^ 32 -> decimal line num ->
  exists calls, gotcha_assert_fail m s file line function = Ok calls /\
    received [] calls = fname ++ lit ":" ++ num ++ lit ": " ++ func ++ lit ": Assertion `" ++ expr ++ lit "' failed." ++ [10].
Proof.
  intros m s file line function expr fname func num Hs Hf Hfn R D. change (2 ^ 32) with 4294967296 in R. unfold gotcha_assert_fail.
  destruct (ulong_to_str_ok (local 64) line 0 63 num) as [U _]; [unfold two64; lia|exact D|intros a Ha; apply (local_accessible 64); cbn; lia|].
  destruct U as (m' & -> & S' & _).
  { unfold fits_in. destruct (Z.eqb_spec line 0); [lia|]. destruct D as (ds & C & ->). pose proof (canonical_len10 10 (Z.abs line) ds ltac:(lia) C ltac:(unfold two64; lia)).
    destruct (Z.ltb_spec line 0); [lia|]. cbn [app]. rewrite map_length. lia. }
  cbn [bind]. destruct (Z.eqb_spec (zlen num) (-1)); [lia|]. cbn [bind].
  rewrite (write_str_ok _ _ _ Hf). cbn [bind]. rewrite (write_str_ok _ _ _ S'). cbn [bind]. rewrite (write_str_ok _ _ _ Hfn). cbn [bind].
  rewrite (write_str_ok _ _ _ Hs). cbn [bind]. eexists. split; [reflexivity|]. rewrite received_all. cbn [concat]. rewrite !app_nil_r. reflexivity.
Qed.
Print Assumptions C62_message.
Example C62_ex : let m := image [lit "*str == '%'"; lit "libc_wrappers.c"; lit "gotcha_int_printf"] in
  str_at m 0 (lit "*str == '%'") /\ str_at m 12 (lit "libc_wrappers.c") /\ str_at m 28 (lit "gotcha_int_printf") /\
  decimal 407 (lit "407") /\
  match gotcha_assert_fail m 0 12 407 28 with
  | Ok calls => received [] calls = lit "libc_wrappers.c:407: gotcha_int_printf: Assertion `*str == '%'' failed." ++ [10]
  | _ => False
  end.
Proof.
  cbv zeta. split; [str|]. split; [str|]. split; [str|]. split; [|vm_compute; reflexivity].
  exists [4; 0; 7]. split; [|reflexivity]. split; [repeat constructor; lia|]. split; [reflexivity|]. right. exists 4, [0; 7]. split; [auto|lia].
Qed.

(** The only assertion, in gotcha_int_printf, never fails, whatever the memory, the format and the arguments. *)
Definition holds_up {A} (o : outcome A) : Prop := o <> Fault AssertFailed.
Lemma up_bind {A B} (o : outcome A) (k : A -> outcome B) : holds_up o -> (forall a, o = Ok a -> holds_up (k a)) -> holds_up (bind o k).
Proof. destruct o; cbn; auto. intros H _ E. apply H. congruence. Qed.
Lemma up_ok {A} (a : A) : holds_up (Ok a).
Proof. discriminate. Qed.
Lemma up_ld m a : holds_up (ld m a).
Proof. unfold ld. destruct (a <? 0); [discriminate|]. destruct (nth_error m (Z.to_nat a)) as [[?|]|]; discriminate. Qed.
Lemma up_st m a v : holds_up (st m a v).
Proof. apply up_bind; [apply up_ld|discriminate]. Qed.
Lemma up_int_op z : holds_up (int_op z).
Proof. unfold int_op. destruct (in_int z); discriminate. Qed.
Lemma up_incr z : holds_up (incr z).
Proof. unfold incr. destruct (z <? INT_MAX); discriminate. Qed.
Ltac up := repeat match goal with
  | |- holds_up (Ok _) => apply up_ok
  | |- holds_up (Fault _) => discriminate
  | |- holds_up (ld _ _) => apply up_ld
  | |- holds_up (st _ _ _) => apply up_st
  | |- holds_up (int_op _) => apply up_int_op
  | |- holds_up (incr _) => apply up_incr
  | |- holds_up (bind _ _) => apply up_bind; [|intros ? _]
  | |- holds_up (let '(_, _) := ?x in _) => destruct x
  | |- holds_up (if ?c then _ else _) => destruct c
  | H : holds_up ?o |- holds_up ?o => exact H
  end.
Lemma add_loop_up m b : forall f str p, holds_up (add_loop f m str b p).
Proof. induction f as [|f IH]; intros str p; [discriminate|]. cbn [add_loop]. up. apply IH. Qed.
(** where it stops *)
Lemma add_loop_stop m : forall f str p str' p', add_loop f m str false p = Ok (str', p') -> ld m str' = Ok 0 \/ ld m str' = Ok 37.
Proof.
  induction f as [|f IH]; intros str p str' p' E; [discriminate|]. cbn [add_loop] in E. destruct (ld m str) as [c|] eqn:L; [|discriminate E]. cbn [bind] in E.
  destruct (Z.eqb_spec c 0) as [->|N0]; cbn [negb andb orb] in E; [injection E as <- _; auto|].
  destruct (Z.eqb_spec c 37) as [->|N37]; cbn [negb] in E; [injection E as <- _; auto|].
  match type of E with bind ?o _ = _ => destruct o as [q|] end; [|discriminate E]. apply (IH _ _ _ _ E).
Qed.
Lemma add_up m str b p : holds_up (add_to_buffer m str b p).
Proof. apply add_loop_up. Qed.
Lemma count_up base : forall f v n, holds_up (count_loop f base v n).
Proof. induction f as [|f IH]; intros; [discriminate|]. cbn [count_loop]. up. apply IH. Qed.
Lemma digits_up base d : forall n m s v, holds_up (digits_loop n base d m s v).
Proof. induction n as [|n IH]; intros; [discriminate|]. cbn [digits_loop]. up. apply IH. Qed.
Lemma ulong_up base d m n s l : holds_up (ulong_to base d m n s l).
Proof. unfold ulong_to. up; first [apply count_up | apply digits_up]. Qed.
Lemma slong_up m n s l : holds_up (slong_to_str m n s l).
Proof. unfold slong_to_str, ulong_to_str. up; apply ulong_up. Qed.
Lemma print_num_up o p : holds_up o -> holds_up (print_num o p).
Proof. intros H. unfold print_num. up. apply add_up. Qed.
Lemma print_lit_up s p : holds_up (print_lit s p).
Proof. unfold print_lit. up. apply add_up. Qed.
Lemma va_up l : holds_up (va_slot l).
Proof. destruct l; discriminate. Qed.
Lemma convert_up m c w args p : holds_up (convert m c w args p).
Proof. unfold convert, ulong_to_str, ulong_to_hexstr. up; first [apply va_up | apply print_lit_up | apply add_up | apply print_num_up; first [apply ulong_up | apply slong_up]]. Qed.
Lemma finish_up p : holds_up (finish p).
Proof. unfold finish. up. Qed.
Lemma printf_loop_up m : forall f str args p, holds_up (printf_loop f m str args p).
Proof.
  induction f as [|f IH]; intros str args p; [discriminate|]. rewrite printf_loop_eq. apply up_bind; [apply up_ld|]. intros c _. destruct (c =? 0); [apply finish_up|].
  apply up_bind; [apply add_up|]. intros [str' p'] E. apply add_loop_stop in E. destruct E as [E|E]; rewrite E; cbn [bind Z.eqb Pos.eqb negb]; [apply finish_up|].
  unfold after_percent, conv_at, inc. up; first [apply finish_up | apply convert_up | apply IH].
Qed.
Theorem C62_never_fails : forall m format args buf, gotcha_int_printf m format args buf <> Fault AssertFailed.
Proof. intros. apply printf_loop_up. Qed.
Print Assumptions C62_never_fails.

(** *** C63 *)
(** the flags O_CREAT and O_TMPFILE (__O_TMPFILE | O_DIRECTORY) make the kernel use the mode *)
Definition O_TMPFILE_bit : Z := 4194304.
Definition uses_mode (flags : Z) : bool := negb (Z.land flags 64 =? 0) || negb (Z.land flags O_TMPFILE_bit =? 0).
(** The mode given is passed on.  Missing: O_TMPFILE. *)
Theorem C63_mode_partial : forall flags mode rest, Z.land flags O_TMPFILE_bit = 0 -> 0 <= mode < 2 ^ 32 ->
  exists mode', gotcha_open flags (mode :: rest) = Ok (flags, mode') /\ (uses_mode flags = true -> mode' = mode) /\
    (uses_mode flags = false -> gotcha_open flags [] = Ok (flags, mode')).
Proof.
  intros flags mode rest T R. unfold gotcha_open, uses_mode, O_CREAT. rewrite T. cbn [Z.eqb negb]. rewrite orb_false_r.
  destruct (Z.land flags 64 =? 0); cbn [negb va_slot bind].
  - exists 0. split; [auto|]. split; [discriminate|auto].
  - exists mode. split; [|split; [auto|discriminate]]. f_equal. f_equal. apply Z.mod_small. exact R.
Qed.
Print Assumptions C63_mode_partial.
(** a file made with O_TMPFILE gets mode 0 *)
Theorem C63_tmpfile_refuted : exists flags mode, uses_mode flags = true /\ mode <> 0 /\ gotcha_open flags [mode] = Ok (flags, 0).
Proof. exists 4259842, 384. split; [reflexivity|]. split; [lia|reflexivity]. Qed.
Print Assumptions C63_tmpfile_refuted.
(** ... always, unless O_CREAT is given as well *)
Theorem C63_tmpfile_law : forall flags args, Z.land flags 64 = 0 -> gotcha_open flags args = Ok (flags, 0).
Proof. intros flags args H. unfold gotcha_open, O_CREAT. rewrite H. reflexivity. Qed.
Print Assumptions C63_tmpfile_law.
Example C63_ex : gotcha_open 577 [420] = Ok (577, 420) /\ uses_mode 577 = true /\ gotcha_open 0 [] = Ok (0, 0) /\ uses_mode 0 = false.
Proof. repeat split. Qed.
