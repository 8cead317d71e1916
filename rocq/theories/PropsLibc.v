(** Properties C42-C48, C51, C55, C56: the internal replacements for libc functions.  All of them are about
    the build with FORCE_NO_LIBC, except C55. *)
From Verif Require Import Base ListFacts LibcModel SpecLibc LibcProofs LibcProofs2 LibcProofs3 LibcProofs4.
From Coq Require String.
Import String.StringSyntax.
Open Scope string_scope.
Open Scope list_scope.
Open Scope Z_scope.
Notation lit s := (of_string s).

(** *** memories for examples *)
(** the strings one after the other, each with its NUL *)
Definition image (l : list cstr) : bytes := flat_map literal l.
Fixpoint bytes_atb (m : bytes) (p : Z) (l : list Z) : bool :=
  match l with [] => true | b :: r => match ld m p with Ok c => c =? b | _ => false end && bytes_atb m (p + 1) r end.
Lemma bytes_atb_ok m p l : bytes_atb m p l = true -> bytes_at m p l.
Proof.
  revert p; induction l as [|b l IH]; intros p; cbn; [auto|]. intros H. apply andb_prop in H as [H K]. split; [|auto].
  destruct (ld m p) as [c|] eqn:E; [|discriminate]. apply Z.eqb_eq in H. subst. apply ld_holds. auto.
Qed.
Definition str_atb (m : bytes) (p : Z) (s : cstr) : bool := forallb (fun b => (1 <=? b) && (b <=? 255)) s && bytes_atb m p (s ++ [0]).
Lemma str_atb_ok m p s : str_atb m p s = true -> str_at m p s.
Proof.
  intros H. apply andb_prop in H as [H K]. split; [|apply bytes_atb_ok; auto].
  apply Forall_forall. intros b Hb. rewrite forallb_forall in H. specialize (H b Hb). lia.
Qed.
Ltac str := apply str_atb_ok; vm_compute; reflexivity.

(** *** C42 *)
(** gotcha_strcmp returns 0 exactly for equal strings *)
Theorem C42_equal : forall m p q s t, str_at m p s -> str_at m q t -> short s ->
  exists r, gotcha_strcmp m p q = Ok r /\ (r = 0 <-> s = t).
Proof. intros m p q s t H K L. eexists. split; [apply (strcmp_ok _ _ _ _ _ H K L)|]. apply cmp_val_0; [apply H|apply K]. Qed.
Print Assumptions C42_equal.
(** gotcha_strncmp compares at most n bytes, and does not look beyond them *)
Theorem C42_prefix : forall m p q n s t, 0 <= n <= INT_MAX -> nstr_at m p n s -> nstr_at m q n t ->
  exists r, gotcha_strncmp m p q n = Ok r /\ (r = 0 <-> s = t).
Proof. intros m p q n s t N H K. eexists. split; [apply (strncmp_ok _ _ _ _ _ _ N H K)|]. apply cmp_val_0; [apply H|apply K]. Qed.
Print Assumptions C42_prefix.
Theorem C42_prefix_strings : forall m p q n s t, 0 <= n <= INT_MAX -> str_at m p s -> str_at m q t ->
  exists r, gotcha_strncmp m p q n = Ok r /\ (r = 0 <-> firstn (Z.to_nat n) s = firstn (Z.to_nat n) t).
Proof. intros m p q n s t N H K. apply C42_prefix; auto; apply str_nstr; auto; lia. Qed.
Print Assumptions C42_prefix_strings.
(** The sign is that of the C library for ASCII strings of which the first is no proper prefix of the
    second.  Missing: the other strings, for which the claim is false. *)
Theorem C42_sign_partial : forall m p q s t, str_at m p s -> str_at m q t -> short s ->
  Forall (fun b => b < 128) s -> Forall (fun b => b < 128) t -> (forall b r, t <> s ++ b :: r) ->
  exists r, gotcha_strcmp m p q = Ok r /\ Z.sgn r = libc_strcmp s t.
Proof.
  intros m p q s t H K L A B N. eexists. split; [apply (strcmp_ok _ _ _ _ _ H K L)|].
  apply cmp_val_sign; auto.
  - apply Forall_and; [|exact A]. eapply Forall_impl; [|apply H]. cbn. lia.
  - apply Forall_and; [|exact B]. eapply Forall_impl; [|apply K]. cbn. lia.
Qed.
Print Assumptions C42_sign_partial.
Definition two_strings (s t : cstr) : bytes := image [s; t].
(** "a" is less than "ab", but the result is positive *)
Theorem C42_sign_refuted : exists m p q s t r, str_at m p s /\ str_at m q t /\ gotcha_strcmp m p q = Ok r /\ libc_strcmp s t < 0 /\ r > 0.
Proof.
  exists (two_strings (lit "a") (lit "ab")), 0, 2, (lit "a"), (lit "ab"), 1.
  split; [str|]. split; [str|]. split; [vm_compute; reflexivity|]. split; [vm_compute; reflexivity|lia].
Qed.
Print Assumptions C42_sign_refuted.
(** bytes above 127 (UTF-8) sort before ASCII *)
Theorem C42_signed_char_refuted : exists m p q s t r, str_at m p s /\ str_at m q t /\ gotcha_strcmp m p q = Ok r /\ libc_strcmp s t > 0 /\ r < 0.
Proof.
  exists (two_strings [195; 169] (lit "z")), 0, 3, [195; 169], (lit "z"), (-183).
  split; [str|]. split; [str|]. split; [vm_compute; reflexivity|]. split; [vm_compute; reflexivity|lia].
Qed.
Print Assumptions C42_signed_char_refuted.
Example C42_ex : str_at (two_strings (lit "malloc") (lit "main")) 0 (lit "malloc") /\ str_at (two_strings (lit "malloc") (lit "main")) 7 (lit "main") /\
  gotcha_strcmp (two_strings (lit "malloc") (lit "main")) 0 7 = Ok 3 /\ gotcha_strncmp (two_strings (lit "malloc") (lit "main")) 0 7 2 = Ok 0.
Proof. split; [str|]. split; [str|]. split; vm_compute; reflexivity. Qed.
(** an array that is not terminated *)
Example C42_ex_unterminated : nstr_at [Some 97; Some 98; None; Some 97; Some 98] 0 2 (lit "ab") /\ nstr_at [Some 97; Some 98; None; Some 97; Some 98] 3 2 (lit "ab").
Proof. split; (split; [repeat constructor; cbn; lia|]; right; split; [reflexivity|apply bytes_atb_ok; reflexivity]). Qed.

(** *** C43 *)
(** gotcha_strstr finds a nonempty needle exactly when it occurs, and determines its first position [k].
    Missing: the pointer returned is needle + k instead of haystack + k, see the refutation. *)
Theorem C43_found_partial : forall m hay needle h nd, str_at m hay h -> str_at m needle nd -> nd <> [] -> short h ->
  (exists k, gotcha_strstr m hay needle = Ok (Some (needle + Z.of_nat k)) /\ first_occurrence nd h k) \/
  (gotcha_strstr m hay needle = Ok None /\ forall k, ~ occurs_at nd h k).
Proof. exact strstr_ok. Qed.
Print Assumptions C43_found_partial.
(** The result does not point to the occurrence: here not even into the haystack or the needle. *)
Theorem C43_pointer_refuted : exists m hay needle h nd k r, str_at m hay h /\ str_at m needle nd /\ first_occurrence nd h k /\
  gotcha_strstr m hay needle = Ok (Some r) /\ r <> hay + Z.of_nat k /\ ~ hay <= r <= hay + Z.of_nat (length h) /\ ~ needle <= r <= needle + Z.of_nat (length nd).
Proof.
  exists (two_strings (lit "/usr/lib/libc.so.6") (lit "libc.so")), 0, 19, (lit "/usr/lib/libc.so.6"), (lit "libc.so"), 9%nat, 28.
  split; [str|]. split; [str|]. split; [|split; [vm_compute; reflexivity|cbn; lia]]. split.
  - exists (lit ".6"). split; [reflexivity|cbn; lia].
  - intros j (suf & E & L). destruct (le_lt_dec 9 j); [auto|]. exfalso.
    do 9 (destruct j as [|j]; [cbn in E; discriminate E|]). lia.
Qed.
Print Assumptions C43_pointer_refuted.
(** The C library returns the haystack for an empty needle; here the result is NULL. *)
Theorem C43_empty_refuted : exists m hay needle h, str_at m hay h /\ str_at m needle [] /\ occurs_at [] h 0 /\ gotcha_strstr m hay needle = Ok None.
Proof.
  exists (two_strings (lit "x") []), 0, 2, (lit "x"). split; [str|]. split; [str|]. split; [|vm_compute; reflexivity].
  exists (lit "x"). split; [reflexivity|cbn; lia].
Qed.
Print Assumptions C43_empty_refuted.
Example C43_ex : str_at (two_strings (lit "aaab") (lit "aab")) 0 (lit "aaab") /\ gotcha_strstr (two_strings (lit "aaab") (lit "aab")) 0 5 = Ok (Some 6) /\
  gotcha_strstr (two_strings (lit "aaab") (lit "ba")) 0 5 = Ok None.
Proof. split; [str|]. split; vm_compute; reflexivity. Qed.

(** *** C44 *)
(** gotcha_getenv returns the value of the first entry name=value, or NULL if there is none *)
Theorem C44_getenv : forall m envp env p name, env_at m envp env -> str_at m p name -> short name ->
  (exists before e value after r, env = before ++ e :: after /\ sets name value e /\ (forall e' v, In e' before -> ~ sets name v e') /\
     gotcha_getenv m envp p = Ok (Some r) /\ str_at m r value /\
     exists s, nth_error envp (length before) = Some s /\ r = s + zlen name + 1) \/
  ((forall e v, In e env -> ~ sets name v e) /\ gotcha_getenv m envp p = Ok None).
Proof.
  intros m envp env p name E H L. unfold gotcha_getenv. rewrite (strlen_ok _ _ _ H). cbn [bind]. rewrite s32_id by (unfold short in L; lia).
  destruct (getenv_loop_ok m p name H L envp env E) as [(b1 & s & b2 & e1 & value & e2 & -> & -> & Ln & NB & R & V)|(NB & R)]; [left|right; auto].
  exists e1, (name ++ 61 :: value), value, e2, (s + zlen name + 1). split; [auto|]. split; [reflexivity|]. split; [auto|]. split; [auto|]. split; [auto|].
  exists s. split; [|auto]. unfold cstr in *. rewrite <- Ln, nth_error_app2, Nat.sub_diag by lia. reflexivity.
Qed.
Print Assumptions C44_getenv.
Definition env_mem : bytes := image [lit "GOTCHA_DEBUG"; lit "GOTCHA_DEBUG2=9"; lit "PATH=/bin"; lit "GOTCHA_DEBUG=-3"; lit "GOTCHA_DEBUG=7"].
Example C44_ex : env_at env_mem [13; 29; 39; 55] [lit "GOTCHA_DEBUG2=9"; lit "PATH=/bin"; lit "GOTCHA_DEBUG=-3"; lit "GOTCHA_DEBUG=7"] /\
  str_at env_mem 0 (lit "GOTCHA_DEBUG") /\ gotcha_getenv env_mem [13; 29; 39; 55] 0 = Ok (Some 52) /\ str_at env_mem 52 (lit "-3").
Proof. split; [repeat (apply Forall2_cons; [str|]); apply Forall2_nil|]. split; [str|]. split; [vm_compute; reflexivity|str]. Qed.

(** *** C45 *)
(** Every string consists of minus signs, digits and a rest. *)
Theorem C45_form : forall s, exists signs ds rest, int_form s signs ds rest.
Proof. exact int_form_total. Qed.
(** gotcha_atoi for at most nine digits.  Missing: numbers with ten digits or more (also leading zeros), among
    them values that fit an int; for all of them the code overflows. *)
Theorem C45_value_partial : forall m p s signs ds rest, str_at m p s -> int_form s signs ds rest -> (length ds <= 9)%nat ->
  gotcha_atoi m p = Ok ((-1) ^ Z.of_nat signs * number 10 ds).
Proof. intros m p s k ds rest H F L. rewrite (atoi_ok _ _ _ _ _ _ H F). destruct (Z.leb_spec (zlen ds) 9); [auto|lia]. Qed.
Print Assumptions C45_value_partial.
Theorem C45_ten_digits_overflow : forall m p s signs ds rest, str_at m p s -> int_form s signs ds rest -> (10 <= length ds)%nat ->
  gotcha_atoi m p = Fault SignedOverflow.
Proof. intros m p s k ds rest H F L. rewrite (atoi_ok _ _ _ _ _ _ H F). destruct (Z.leb_spec (zlen ds) 9); [lia|auto]. Qed.
Print Assumptions C45_ten_digits_overflow.
Theorem C45_refuted : exists m p s ds, str_at m p s /\ int_form s 0 ds [] /\ number 10 ds <= INT_MAX /\ gotcha_atoi m p = Fault SignedOverflow.
Proof.
  exists (image [lit "1000000000"]), 0, (lit "1000000000"), [1; 0; 0; 0; 0; 0; 0; 0; 0; 0]. split; [str|]. split; [|split; vm_compute; [discriminate|reflexivity]].
  split; [reflexivity|]. split; [repeat constructor; lia|discriminate].
Qed.
Print Assumptions C45_refuted.
Example C45_ex : int_form (lit "--12x3") 2 [1; 2] (lit "x3") /\ gotcha_atoi (image [lit "--12x3"]) 0 = Ok 12 /\ gotcha_atoi (image [lit "-999999999"]) 0 = Ok (-999999999).
Proof.
  split; [|split; vm_compute; reflexivity]. split; [reflexivity|]. split; [repeat constructor; lia|]. intros c r [= <- _]. split; [lia|]. intros; lia.
Qed.

(** *** C46 *)
(** Every number has exactly one canonical representation. *)
Theorem C46_canonical : forall base num, 2 <= base -> 0 <= num < two64 -> exists ds, canonical base num ds /\ forall ds', canonical base num ds' -> ds' = ds.
Proof.
  intros base num B P. assert (exists ds, canonical base num ds) as (ds & C).
  { destruct (Z.eq_dec num 0) as [->|N].
    - exists [0]. split; [constructor; [lia|constructor]|]. split; [reflexivity|auto].
    - apply (canonical_exists base B 64). assert (2 ^ Z.of_nat 64 <= base ^ Z.of_nat 64) by (apply Z.pow_le_mono_l; lia). change (2 ^ Z.of_nat 64) with two64 in *. lia. }
  exists ds. split; [auto|]. intros ds' C'. apply (canonical_unique base num); auto.
Qed.
Print Assumptions C46_canonical.
(** ulong_to_str: the decimal representation, inside the buffer; the code rejects a buffer with exactly one
    byte for the NUL (other than for 0) *)
Theorem C46_unsigned : forall m num str strlen s, 0 <= num < two64 -> decimal num s -> accessible m str strlen ->
  (fits_in num strlen s -> exists m', ulong_to_str m num str strlen = Ok (m', zlen s) /\ str_at m' str s /\ same_but m m' str (zlen s + 1)) /\
  (~ fits_in num strlen s -> ulong_to_str m num str strlen = Ok (m, -1)).
Proof. exact ulong_to_str_ok. Qed.
Print Assumptions C46_unsigned.
(** slong_to_str.  Missing: LONG_MIN, whose negation overflows. *)
Theorem C46_signed_partial : forall m num str strlen s, LONG_MIN < num <= 9223372036854775807 -> decimal num s -> accessible m str strlen ->
  (fits_in num strlen s -> exists m', slong_to_str m num str strlen = Ok (m', zlen s) /\ str_at m' str s /\ same_but m m' str (zlen s + 1)) /\
  (~ fits_in num strlen s -> slong_to_str m num str strlen = Ok (m, -1)).
Proof. exact slong_to_str_ok. Qed.
Print Assumptions C46_signed_partial.
(** gotcha_atoi reads back what was printed, up to nine digits *)
Theorem C46_read_back_partial : forall m num str strlen s m', Z.abs num < 1000000000 -> decimal num s -> accessible m str strlen -> fits_in num strlen s ->
  slong_to_str m num str strlen = Ok (m', zlen s) -> gotcha_atoi m' str = Ok num.
Proof.
  intros m num str strlen s m' R D A F E. destruct (slong_to_str_ok m num str strlen s) as [H _]; auto; [unfold LONG_MIN; lia|].
  destruct (H F) as (m1 & E1 & S1 & _). assert (m1 = m') by congruence. subst m1.
  destruct D as (ds & C & Es).
  assert (L9 : (length ds <= 9)%nat).
  { destruct (Z.eq_dec num 0) as [->|N0]; [rewrite (canonical_0 10 ds ltac:(lia) C); cbn; lia|].
    pose proof (canonical_low 10 _ ds ltac:(lia) C ltac:(lia)). destruct (le_lt_dec (length ds) 9); [auto|].
    assert (10 ^ 9 <= 10 ^ (zlen ds - 1)) by (apply Z.pow_le_mono_r; lia). lia. }
  rewrite (C45_value_partial m' str s (if num <? 0 then 1 else 0) ds []); auto.
  - destruct C as (_ & -> & _). destruct (Z.ltb_spec num 0); f_equal; [change ((-1) ^ Z.of_nat 1) with (-1)|change ((-1) ^ Z.of_nat 0) with 1]; lia.
  - split; [|split; [apply C|discriminate]]. rewrite app_nil_r. rewrite Es. destruct (num <? 0); reflexivity.
Qed.
Print Assumptions C46_read_back_partial.
Theorem C46_long_min_refuted : exists m, accessible m 0 64 /\ slong_to_str m LONG_MIN 0 64 = Fault SignedOverflow.
Proof. exists (local 64). split; [apply local_accessible|reflexivity]. Qed.
Print Assumptions C46_long_min_refuted.
(** A buffer of three bytes can hold "42" but is rejected. *)
Theorem C46_exact_fit_refuted : exists m num s, decimal num s /\ accessible m 0 3 /\ zlen s + 1 = 3 /\ ulong_to_str m num 0 3 = Ok (m, -1).
Proof.
  exists (local 3), 42, (lit "42"). split; [|split; [apply (local_accessible 3)|split; vm_compute; reflexivity]].
  exists [4; 2]. split; [|reflexivity]. split; [repeat constructor; lia|]. split; [reflexivity|]. right. exists 4, [2]. split; [auto|lia].
Qed.
Print Assumptions C46_exact_fit_refuted.
Example C46_ex : decimal (-1024) (lit "-1024") /\ slong_to_str (local 7) (-1024) 0 7 = Ok (literal (lit "-1024") ++ [Some 0], 5) /\
  ulong_to_str (local 30) 18446744073709551615 0 30 = Ok (literal (lit "18446744073709551615") ++ repeat (Some 0) 9, 20).
Proof.
  split; [|split; vm_compute; reflexivity]. exists [1; 0; 2; 4]. split; [|reflexivity].
  split; [repeat constructor; lia|]. split; [reflexivity|]. right. exists 1, [0; 2; 4]. split; [auto|lia].
Qed.

(** *** C47 *)
(** ulong_to_hexstr; reading back is in PropsAuxv *)
Theorem C47_hex : forall m num str strlen upper s, 0 <= num < two64 -> hexadecimal upper num s -> accessible m str strlen ->
  (fits_in num strlen s -> exists m', ulong_to_hexstr m num str strlen upper = Ok (m', zlen s) /\ str_at m' str s /\ same_but m m' str (zlen s + 1)) /\
  (~ fits_in num strlen s -> ulong_to_hexstr m num str strlen upper = Ok (m, -1)).
Proof. exact ulong_to_hexstr_ok. Qed.
Print Assumptions C47_hex.
Example C47_ex : hexadecimal true 48879 (lit "BEEF") /\ ulong_to_hexstr (local 6) 48879 0 6 true = Ok (literal (lit "BEEF") ++ [Some 0], 4) /\
  ulong_to_hexstr (local 6) 48879 0 6 false = Ok (literal (lit "beef") ++ [Some 0], 4).
Proof.
  split; [|split; vm_compute; reflexivity]. exists [11; 14; 14; 15]. split; [|reflexivity].
  split; [repeat constructor; lia|]. split; [reflexivity|]. right. exists 11, [14; 14; 15]. split; [auto|lia].
Qed.

(** *** C48 *)
(** An expansion of at most 4096 bytes is passed to one write, whatever the buffer contained.
    Missing: longer ones, the NUL character and LONG_MIN; see the refutations. *)
Theorem C48_printf_partial : forall m format fmt args buf out, str_at m format fmt -> expands m fmt args out -> zlen buf = 4096 ->
  zlen out <= 4096 -> gotcha_int_printf m format args buf = Ok ([out], zlen out).
Proof.
  intros m format fmt args buf out H X B L.
  destruct (printf_ok m format fmt args buf out H (expands_writes _ _ _ _ X) B) as (calls & -> & P); [unfold INT_MAX; lia|].
  rewrite repeats_first_small in P by auto. now rewrite (pieces_one out calls P L).
Qed.
Print Assumptions C48_printf_partial.
(** For any length that an int can count the return value is right, and exactly the bytes at the positions
    4096, 8192, ... are replaced by the first one.  The output is written in pieces of 4096 bytes. *)
Theorem C48_any_length_partial : forall m format fmt args buf out, str_at m format fmt -> expands m fmt args out -> zlen buf = 4096 ->
  zlen out <= INT_MAX -> exists calls, gotcha_int_printf m format args buf = Ok (calls, zlen out) /\ pieces (repeats_first out) calls.
Proof. intros m format fmt args buf out H X. apply printf_ok with (fmt := fmt); [exact H|]. apply expands_writes. exact X. Qed.
Print Assumptions C48_any_length_partial.
Definition long_string : cstr := 97 :: repeat 98 (64 * 64).
Definition long_mem : bytes := image [lit "%s"; long_string].
Theorem C48_long_refuted : exists m format fmt args buf out, str_at m format fmt /\ expands m fmt args out /\ zlen buf = 4096 /\
  exists calls n, gotcha_int_printf m format args buf = Ok (calls, n) /\ nth 4096 (received [] calls) 0 <> nth 4096 out 0.
Proof.
  exists long_mem, 0, (lit "%s"), [3], (repeat 0 (64 * 64)), long_string. split; [str|].
  assert (X : expands long_mem (lit "%s") [3] long_string).
  { rewrite <- (app_nil_r long_string). apply (ExString long_mem 3 long_string []); [str|constructor]. }
  split; [exact X|]. split; [vm_compute; reflexivity|].
  destruct (C48_any_length_partial long_mem 0 (lit "%s") [3] (repeat 0 (64 * 64)) long_string) as (calls & E & P);
    [str|exact X|vm_compute; reflexivity|vm_compute; discriminate|].
  exists calls, (zlen long_string). split; [exact E|]. rewrite received_all, (proj1 P). vm_compute. discriminate.
Qed.
Print Assumptions C48_long_refuted.
(** %c with the NUL character prints nothing (the C library prints one byte) *)
Theorem C48_nul_char_refuted : exists m format, str_at m format (lit "%c") /\ forall buf, gotcha_int_printf m format [0] buf = Ok ([[]], 0).
Proof. exists (image [lit "%c"]), 0. split; [str|]. intros buf. reflexivity. Qed.
Print Assumptions C48_nul_char_refuted.
Theorem C48_long_min_refuted : exists m format, str_at m format (lit "%ld") /\ forall buf, gotcha_int_printf m format [9223372036854775808] buf = Fault SignedOverflow.
Proof. exists (image [lit "%ld"]), 0. split; [str|]. intros buf. reflexivity. Qed.
Print Assumptions C48_long_min_refuted.
(** a debug message of GOTCHA *)
Definition msg_fmt : cstr := lit "[%d/%u][%s:%u] - %s at %p, %hhx %%, %c%lu".
Definition msg_mem : bytes := image [msg_fmt; lit "gotcha.c"; lit "wrap"].
Example C48_ex : exists args, expands msg_mem msg_fmt args (lit "[-17/4294967295][gotcha.c:88] - wrap at 0xbeef, 7f %, A0").
Proof.
  exists [4294967279; -1; 42; 88; 51; 48879; 895; 65; 0]. 
  match goal with |- expands ?m ?f ?a ?o => let f' := eval vm_compute in f in let o' := eval vm_compute in o in change (expands m f' a o') end.
  assert (DS : forall n ds, canonical 10 (Z.abs n) ds -> decimal n ((if n <? 0 then [45] else []) ++ map dec_char ds)) by (intros n ds C; exists ds; auto).
  Ltac canon := split; [repeat constructor; lia|split; [reflexivity|]]; solve [left; reflexivity|right; eexists; eexists; split; [reflexivity|lia]].
  apply ExChar; [lia|].
  apply (ExSigned _ WNone 100 4294967279 (-17) (lit "-17")); [auto|split; [cbn; lia|exists 1; reflexivity]|cbn; lia|apply (DS (-17) [1; 7]); canon|].
  apply ExChar; [lia|].
  apply (ExUnsigned _ WNone (-1) 4294967295 (lit "4294967295")); [split; [cbn; lia|exists (-1); reflexivity]|apply (DS 4294967295 [4; 2; 9; 4; 9; 6; 7; 2; 9; 5]); canon|].
  do 2 (apply ExChar; [lia|]).
  apply (ExString _ 42 (lit "gotcha.c")); [str|]. apply ExChar; [lia|].
  apply (ExUnsigned _ WNone 88 88 (lit "88")); [split; [cbn; lia|exists 0; reflexivity]|apply (DS 88 [8; 8]); canon|].
  do 4 (apply ExChar; [lia|]).
  apply (ExString _ 51 (lit "wrap")); [str|]. do 4 (apply ExChar; [lia|]).
  apply (ExPointer _ 48879 (lit "beef")); [unfold two64; lia|exists [11; 14; 14; 15]; split; [canon|reflexivity]|].
  do 2 (apply ExChar; [lia|]).
  apply (ExHex _ WChar 120 895 127 (lit "7f")); [auto|split; [cbn; lia|exists 3; reflexivity]|exists [7; 15]; split; [canon|reflexivity]|].
  apply ExChar; [lia|]. apply ExPercent. do 2 (apply ExChar; [lia|]).
  apply (ExCharArg _ 65 65); [lia|exists 0; reflexivity|].
  change [48] with (lit "0" ++ []). apply (ExUnsigned _ WLong 0 0 (lit "0")); [split; [cbn; lia|exists 0; reflexivity]|apply (DS 0 [0]); canon|].
  constructor.
Qed.

(** *** C51 *)
Theorem C51_memset : forall m s c n, 0 <= n -> accessible m s n ->
  exists m', gotcha_memset m s c n = Ok m' /\ same_but m m' s n /\ forall a, s <= a < s + n -> holds m' a (c mod 256).
Proof.
  intros m s c n N A. unfold gotcha_memset. pose proof (memset_loop_ok c (Z.to_nat n) m s) as H. rewrite Z2Nat.id in H by lia. auto.
Qed.
Print Assumptions C51_memset.
(** memcpy, also for overlapping areas if the destination lies before the source *)
Theorem C51_memcpy : forall m d s n, 0 <= n -> (d <= s \/ s + n <= d) -> accessible m d n -> accessible m s n ->
  exists m', gotcha_memcpy m d s n = Ok m' /\ same_but m m' d n /\
    forall i b, 0 <= i < n -> holds m (s + i) b -> holds m' (d + i) (b mod 256).
Proof.
  intros m d s n N O A B. unfold gotcha_memcpy. pose proof (memcpy_loop_ok (Z.to_nat n) m d s) as H. rewrite Z2Nat.id in H by lia. auto.
Qed.
Print Assumptions C51_memcpy.
Theorem C51_strlen : forall m p s, str_at m p s -> gotcha_strlen m p = Ok (zlen s).
Proof. exact strlen_ok. Qed.
Print Assumptions C51_strlen.
(** strnlen returns the capped length if the byte after the characters counted may be read.  Missing: an array
    of exactly n bytes without NUL. *)
Theorem C51_strnlen_partial : forall m p n s, nstr_at m p n s -> (exists b, holds m (p + zlen s) b) -> gotcha_strnlen m p n = Ok (zlen s).
Proof. exact strnlen_ok. Qed.
Print Assumptions C51_strnlen_partial.
Theorem C51_strnlen_refuted : exists m p n s, nstr_at m p n s /\ gotcha_strnlen m p n = Fault OutOfBounds.
Proof.
  exists [Some 97; Some 98], 0, 2, (lit "ab"). split; [|vm_compute; reflexivity].
  split; [repeat constructor; cbn; lia|]. right. split; [reflexivity|apply bytes_atb_ok; reflexivity].
Qed.
Print Assumptions C51_strnlen_refuted.
(** strncat appends at most n bytes.  Missing: n larger than the size of the source including its NUL, for
    which the code reads and writes too much. *)
Theorem C51_strncat_partial : forall m dest src n d s, str_at m dest d -> str_at m src s -> 0 <= n <= zlen s + 1 ->
  accessible m dest (zlen d + Z.min n (zlen s) + 1) ->
  (src + zlen s < dest \/ dest + zlen d + Z.min n (zlen s) < src) ->
  exists m', gotcha_strncat m dest src n = Ok m' /\ str_at m' dest (d ++ firstn (Z.to_nat n) s) /\
    same_but m m' (dest + zlen d) (Z.min n (zlen s) + 1).
Proof. exact strncat_ok. Qed.
Print Assumptions C51_strncat_partial.
(** appending "b" to "a" in an array of 8 bytes with n = 6: bytes after the source are read *)
Theorem C51_strncat_refuted : exists m dest src n d s, str_at m dest d /\ str_at m src s /\ accessible m dest (zlen d + n + 1) /\
  gotcha_strncat m dest src n = Fault OutOfBounds.
Proof.
  exists (literal (lit "a") ++ repeat (Some 0) 6 ++ literal (lit "b")), 0, 8, 6, (lit "a"), (lit "b"). split; [str|]. split; [str|]. split; [|vm_compute; reflexivity].
  intros a Ha. cbn in Ha. assert (C : a = 0 \/ a = 1 \/ a = 2 \/ a = 3 \/ a = 4 \/ a = 5 \/ a = 6 \/ a = 7) by lia.
  destruct C as [->|C]; [exists 97; split; [lia|reflexivity]|]. exists 0. split; [lia|].
  repeat (destruct C as [->|C]; [reflexivity|]). subst. reflexivity.
Qed.
Print Assumptions C51_strncat_refuted.
Definition cat_mem : bytes := literal (lit "ab") ++ repeat (Some 120) 5 ++ literal (lit "cdef").
Example C51_ex : str_at cat_mem 0 (lit "ab") /\ str_at cat_mem 8 (lit "cdef") /\
  exists m', gotcha_strncat cat_mem 0 8 3 = Ok m' /\ str_at m' 0 (lit "abcde").
Proof. split; [str|]. split; [str|]. eexists. split; [vm_compute; reflexivity|str]. Qed.

(** *** C55 *)
Theorem C55_order : forall a b, in_range a -> in_range b ->
  let '(ma, mi, pa) := a in let '(mb, mj, pb) := b in
  (GOTCHA_GET_VERSION ma mi pa < GOTCHA_GET_VERSION mb mj pb <-> version_lt a b) /\
  (GOTCHA_GET_VERSION ma mi pa = GOTCHA_GET_VERSION mb mj pb <-> a = b).
Proof.
  intros [[ma mi] pa] [[mb mj] pb]. unfold in_range, version_lt, GOTCHA_GET_VERSION. intros A B. split; [lia|].
  split; [|congruence]. intros E. assert (ma = mb) by lia. assert (mi = mj) by lia. assert (pa = pb) by lia. congruence.
Qed.
Print Assumptions C55_order.
(** the components; no overflow of int for major numbers below 21474 *)
Theorem C55_components : forall ma mi pa, in_range (ma, mi, pa) ->
  let v := GOTCHA_GET_VERSION ma mi pa in VERSION_MAJOR v = ma /\ VERSION_MINOR v = mi /\ VERSION_PATCH v = pa /\ (ma < 21474 -> 0 <= v <= INT_MAX).
Proof.
  unfold in_range, GOTCHA_GET_VERSION, VERSION_MAJOR, VERSION_MINOR, VERSION_PATCH, INT_MAX. intros ma mi pa R. cbv zeta.
  assert (E1 : (ma * 100000 + mi * 100 + pa) / 100 = ma * 1000 + mi).
  { replace (ma * 100000 + mi * 100 + pa) with ((ma * 1000 + mi) * 100 + pa) by lia. rewrite Z.div_add_l by lia. rewrite Z.div_small by lia. lia. }
  split; [|split; [|split]].
  - rewrite <- Z.add_assoc, Z.div_add_l by lia. rewrite Z.div_small by lia. lia.
  - rewrite E1, Z.add_comm, Z_mod_plus by lia. apply Z.mod_small. lia.
  - replace (ma * 100000 + mi * 100 + pa) with (pa + (ma * 1000 + mi) * 100) by lia. rewrite Z_mod_plus by lia. apply Z.mod_small. lia.
  - lia.
Qed.
Print Assumptions C55_components.
Example C55_ex : in_range (1, 0, 7) /\ GOTCHA_GET_VERSION 1 0 7 = 100007 /\ version_lt (1, 0, 7) (1, 1, 0).
Proof. unfold in_range, version_lt. repeat split; try lia. Qed.

(** *** C56 *)
(** The first call of debug_init leaves the level 0 if GOTCHA_DEBUG is not set and otherwise sets it to the
    value of the first setting, at least 1; later calls change nothing.
    Missing: values of ten digits or more. *)
Theorem C56_level_partial : forall m envp env p, env_at m envp env -> str_at m p (lit "GOTCHA_DEBUG") ->
  (forall level, debug_init m envp p (true, level) = Ok (true, level)) /\
  ((forall e v, In e env -> ~ sets (lit "GOTCHA_DEBUG") v e) -> debug_init m envp p (false, 0) = Ok (true, 0)) /\
  (forall before e value after signs ds rest, env = before ++ e :: after -> sets (lit "GOTCHA_DEBUG") value e ->
     (forall e' v, In e' before -> ~ sets (lit "GOTCHA_DEBUG") v e') -> int_form value signs ds rest -> (length ds <= 9)%nat ->
     debug_init m envp p (false, 0) = Ok (true, Z.max 1 ((-1) ^ Z.of_nat signs * number 10 ds))).
Proof.
  intros m envp env p E H. split; [reflexivity|].
  assert (G := C44_getenv m envp env p _ E H). destruct G as [(b1 & e1 & v1 & a1 & r & Ee & Se & Nb & R & V & _)|(NB & R)].
  { vm_compute. discriminate. }
  - split.
    + intros N. elim (N e1 v1); auto. rewrite Ee. apply in_or_app. right. left. auto.
    + intros before e value after signs ds rest Ee' Se' Nb' F L. unfold debug_init. rewrite R. cbn [bind].
      assert (b1 = before /\ e1 = e) as [-> ->].
      { rewrite Ee in Ee'. clear - Ee' Se Se' Nb Nb'. revert before Ee' Nb'. induction b1 as [|x b1 IH]; intros [|y before] Q Nb'; cbn in Q.
        - injection Q as -> _. auto.
        - injection Q as -> _. elim (Nb' y v1); auto. left. auto.
        - injection Q as -> _. elim (Nb e value); auto. left. auto.
        - injection Q as -> Q. destruct (IH ltac:(intros; eapply Nb; right; eauto) before Q ltac:(intros; eapply Nb'; right; eauto)) as [-> ->]. auto. }
      assert (v1 = value) as ->. { unfold sets in *. rewrite Se in Se'. apply app_inv_head in Se'. congruence. }
      rewrite (C45_value_partial m r value signs ds rest V F L). cbn [bind]. f_equal. f_equal.
      destruct (Z.leb_spec ((-1) ^ Z.of_nat signs * number 10 ds) 0); lia.
  - split.
    + intros _. unfold debug_init. rewrite R. reflexivity.
    + intros before e value after signs ds rest -> Se' _ _ _. elim (NB e value); auto. apply in_or_app. right. left. auto.
Qed.
Print Assumptions C56_level_partial.
Theorem C56_refuted : exists m envp env p, env_at m envp env /\ env = [lit "GOTCHA_DEBUG=1000000000"] /\ str_at m p (lit "GOTCHA_DEBUG") /\
  debug_init m envp p (false, 0) = Fault SignedOverflow.
Proof.
  exists (image [lit "GOTCHA_DEBUG"; lit "GOTCHA_DEBUG=1000000000"]), [13], [lit "GOTCHA_DEBUG=1000000000"], 0.
  split; [repeat (apply Forall2_cons; [str|]); apply Forall2_nil|]. split; [auto|]. split; [str|vm_compute; reflexivity].
Qed.
Print Assumptions C56_refuted.
Example C56_ex : debug_init env_mem [13; 29; 39; 55] 0 (false, 0) = Ok (true, 1) /\ debug_init env_mem [55] 0 (false, 0) = Ok (true, 7) /\
  debug_init env_mem [13; 29] 0 (false, 0) = Ok (true, 0).
Proof. repeat split; vm_compute; reflexivity. Qed.
