(** Model of GOTCHA's replacements for libc functions, src/libc_wrappers.c, except the allocator (AllocModel)
    and the system call wrappers.  Also debug_init (src/gotcha_utils.c) and the version macros
    (cmake/gotcha_config.h.in).

    Memory is a finite sequence of bytes addressed from 0; [None] is a byte that may not be accessed.
    Simplifications: forming an out-of-range pointer without dereferencing it (cur = nptr - 1 in gotcha_atoi)
    is not an error; memory does not wrap around at 2^64. *)
From Verif Require Import Base.
From Coq Require String.
Import String.StringSyntax.
Open Scope string_scope.
Open Scope list_scope.
Open Scope Z_scope.

Definition bytes := list (option Z).
(** *a read through unsigned char *; plain char is [schar] of it *)
Definition ld (m : bytes) (a : Z) : outcome Z :=
  if a <? 0 then Fault OutOfBounds
  else match nth_error m (Z.to_nat a) with Some (Some b) => Ok b | _ => Fault OutOfBounds end.
(** *a = v *)
Definition st (m : bytes) (a v : Z) : outcome bytes :=
  do _ <- ld m a; Ok (upd m (Z.to_nat a) (fun _ => Some (v mod 256))).
(** i++ for an int *)
Definition incr (i : Z) : outcome Z := if i <? INT_MAX then Ok (i + 1) else Fault SignedOverflow.

(** gotcha_memcpy, src/libc_wrappers.c:134-139 *)
Fixpoint memcpy_loop (n : nat) (m : bytes) (dest src : Z) : outcome bytes :=
  match n with
  | O => Ok m
  | S k => do b <- ld m src; do m <- st m dest b; memcpy_loop k m (dest + 1) (src + 1)
  end.
Definition gotcha_memcpy (m : bytes) (dest src size : Z) : outcome bytes := memcpy_loop (Z.to_nat size) m dest src.

(** gotcha_strncmp, src/libc_wrappers.c:141-152 *)
Fixpoint strncmp_loop (fuel : nat) (m : bytes) (one two : Z) (max i : Z) : outcome Z :=
  match fuel with
  | O => Fault NoTermination
  | S f =>
    if i <? max then
      do a <- ld m (one + i);
      do b <- ld m (two + i);
      if a =? 0 then Ok (if b =? 0 then 0 else 1)
      else if negb (a =? b) then Ok (schar a - schar b)
      else do i <- incr i; strncmp_loop f m one two max i
    else Ok 0
  end.
Definition gotcha_strncmp (m : bytes) (one two max : Z) : outcome Z := strncmp_loop (S (S (length m))) m one two max 0.

(** gotcha_strcmp, src/libc_wrappers.c:154-164 *)
Fixpoint strcmp_loop (fuel : nat) (m : bytes) (one two : Z) (i : Z) : outcome Z :=
  match fuel with
  | O => Fault NoTermination
  | S f =>
    do a <- ld m (one + i);
    do b <- ld m (two + i);
    if a =? 0 then Ok (if b =? 0 then 0 else 1)
    else if negb (a =? b) then Ok (schar a - schar b)
    else do i <- incr i; strcmp_loop f m one two i
  end.
Definition gotcha_strcmp (m : bytes) (one two : Z) : outcome Z := strcmp_loop (S (length m)) m one two 0.

(** inner loop of gotcha_strstr, src/libc_wrappers.c:172-176: [Some r] = return r, [None] = break *)
Fixpoint strstr_match (fuel : nat) (m : bytes) (hay needle i j : Z) : outcome (option (option Z)) :=
  match fuel with
  | O => Fault NoTermination
  | S f =>
    do b <- ld m (needle + j);
    if b =? 0 then Ok (Some (Some (needle + i)))
    else if i + j >? INT_MAX then Fault SignedOverflow
    else
      do a <- ld m (hay + (i + j));
      if a =? 0 then Ok (Some None)
      else if negb (b =? a) then Ok None
      else do j <- incr j; strstr_match f m hay needle i j
  end.
(** gotcha_strstr, src/libc_wrappers.c:166-179; [None] is NULL *)
Fixpoint strstr_loop (fuel : nat) (m : bytes) (hay needle i : Z) : outcome (option Z) :=
  match fuel with
  | O => Fault NoTermination
  | S f =>
    do a <- ld m (hay + i);
    if a =? 0 then Ok None
    else
      do b <- ld m needle;
      if negb (a =? b) then do i <- incr i; strstr_loop f m hay needle i
      else
        do r <- strstr_match (S (length m)) m hay needle i 1;
        match r with
        | Some res => Ok res
        | None => do i <- incr i; strstr_loop f m hay needle i
        end
  end.
Definition gotcha_strstr (m : bytes) (hay needle : Z) : outcome (option Z) :=
  do b <- ld m needle;
  if b =? 0 then Ok None else strstr_loop (S (length m)) m hay needle 0.

(** gotcha_strlen, src/libc_wrappers.c:185-190 *)
Fixpoint strlen_loop (fuel : nat) (m : bytes) (s i : Z) : outcome Z :=
  match fuel with
  | O => Fault NoTermination
  | S f => do c <- ld m (s + i); if c =? 0 then Ok i else strlen_loop f m s (i + 1)
  end.
Definition gotcha_strlen (m : bytes) (s : Z) : outcome Z := strlen_loop (S (length m)) m s 0.

(** gotcha_strnlen, src/libc_wrappers.c:192-197 *)
Fixpoint strnlen_loop (fuel : nat) (m : bytes) (s max i : Z) : outcome Z :=
  match fuel with
  | O => Fault NoTermination
  | S f => do c <- ld m (s + i); if negb (c =? 0) && (i <? max) then strnlen_loop f m s max (i + 1) else Ok i
  end.
Definition gotcha_strnlen (m : bytes) (s max : Z) : outcome Z := strnlen_loop (S (length m)) m s max 0.

(** gotcha_memset, src/libc_wrappers.c:519-526 *)
Fixpoint memset_loop (n : nat) (m : bytes) (s c : Z) : outcome bytes :=
  match n with O => Ok m | S k => do m <- st m s c; memset_loop k m (s + 1) c end.
Definition gotcha_memset (m : bytes) (s c n : Z) : outcome bytes := memset_loop (Z.to_nat n) m s c.

(** gotcha_strncat, src/libc_wrappers.c:528-535 *)
Definition gotcha_strncat (m : bytes) (dest src n : Z) : outcome bytes :=
  do l <- gotcha_strlen m dest;
  do stop <- gotcha_strnlen m src n;
  do m <- st m (dest + l + stop) 0;
  gotcha_memcpy m (dest + l) src n.

(** *** numbers *)
(** for (len = 0, val = num; val; val = val / base, len++), src/libc_wrappers.c:212-213 and 237-238 *)
Fixpoint count_loop (fuel : nat) (base val len : Z) : outcome Z :=
  match fuel with
  | O => Fault NoTermination
  | S f => if val =? 0 then Ok len else do len <- incr len; count_loop f base (val / base) len
  end.
(** for (i = 1; i <= len; i++) { str[len - i] = ...; val = val / base; }, src/libc_wrappers.c:218-222 and
    243-246; [n] = len - i + 1 digits remain and the next position is n - 1 *)
Fixpoint digits_loop (n : nat) (base : Z) (digit : Z -> Z) (m : bytes) (str val : Z) : outcome bytes :=
  match n with
  | O => Ok m
  | S k => do m <- st m (str + Z.of_nat k) (digit (val mod base)); digits_loop k base digit m str (val / base)
  end.
(** ulong_to_hexstr and ulong_to_str, src/libc_wrappers.c:199-224 and 226-248; the result is the memory and
    the return value.  [num] is an unsigned long. *)
Definition ulong_to (base : Z) (digit : Z -> Z) (m : bytes) (num str strlen : Z) : outcome (bytes * Z) :=
  if num =? 0 then
    if strlen <? 2 then Ok (m, -1)
    else do m <- st m str 48; do m <- st m (str + 1) 0; Ok (m, 1)
  else
    do len <- count_loop 65 base num 0;
    if len + 1 >=? strlen then Ok (m, -1)
    else
      do m <- st m (str + len) 0;
      do m <- digits_loop (Z.to_nat len) base digit m str num;
      Ok (m, len).
Definition hex_digit (uppercase : bool) (d : Z) : Z := if d <=? 9 then 48 + d else (if uppercase then 65 else 97) + (d - 10).
Definition dec_digit (d : Z) : Z := 48 + d.
Definition ulong_to_hexstr (m : bytes) (num str strlen : Z) (uppercase : bool) : outcome (bytes * Z) :=
  ulong_to 16 (hex_digit uppercase) m num str strlen.
Definition ulong_to_str (m : bytes) (num str strlen : Z) : outcome (bytes * Z) := ulong_to 10 dec_digit m num str strlen.
(** slong_to_str, src/libc_wrappers.c:250-258; [num] is a signed long *)
Definition LONG_MIN : Z := -9223372036854775808.
Definition slong_to_str (m : bytes) (num str strlen : Z) : outcome (bytes * Z) :=
  if 0 <=? num then ulong_to_str m num str strlen
  else if num =? LONG_MIN then Fault SignedOverflow
  else
    do ' (m, result) <- ulong_to_str m (- num) (str + 1) (strlen - 1);
    if result =? -1 then Ok (m, -1)
    else do m <- st m str 45; Ok (m, result + 1).

(** gotcha_atoi, src/libc_wrappers.c:339-357 *)
Fixpoint atoi_signs (fuel : nat) (m : bytes) (nptr neg : Z) : outcome (Z * Z) :=
  match fuel with
  | O => Fault NoTermination
  | S f => do c <- ld m nptr; if c =? 45 then atoi_signs f m (nptr + 1) (neg * -1) else Ok (nptr, neg)
  end.
Fixpoint atoi_len (fuel : nat) (m : bytes) (nptr len : Z) : outcome Z :=
  match fuel with
  | O => Fault NoTermination
  | S f => do c <- ld m (nptr + len); if (48 <=? c) && (c <=? 57) then do len <- incr len; atoi_len f m nptr len else Ok len
  end.
(** arithmetic on int *)
Definition int_op (z : Z) : outcome Z := if in_int z then Ok z else Fault SignedOverflow.
(** the loop from the last digit to the first; [n] digits remain *)
Fixpoint atoi_loop (n : nat) (m : bytes) (nptr val mult : Z) : outcome Z :=
  match n with
  | O => Ok val
  | S k =>
    do c <- ld m (nptr + Z.of_nat k);
    do t <- int_op (mult * (c - 48));
    do val <- int_op (val + t);
    do mult <- int_op (mult * 10);
    atoi_loop k m nptr val mult
  end.
Definition gotcha_atoi (m : bytes) (nptr : Z) : outcome Z :=
  do ' (nptr, neg) <- atoi_signs (S (length m)) m nptr 1;
  do len <- atoi_len (S (length m)) m nptr 0;
  do val <- atoi_loop (Z.to_nat len) m nptr 0 1;
  int_op (val * neg).

(** gotcha_getenv, src/libc_wrappers.c:281-292; [envp] are the pointers of __environ before the NULL *)
Fixpoint getenv_loop (m : bytes) (envp : list Z) (name name_len : Z) : outcome (option Z) :=
  match envp with
  | [] => Ok None
  | s :: r =>
    do c <- gotcha_strncmp m name s name_len;
    if negb (c =? 0) then getenv_loop m r name name_len
    else
      do e <- ld m (s + name_len);
      if negb (e =? 61) then getenv_loop m r name name_len
      else Ok (Some (s + name_len + 1))
  end.
Definition gotcha_getenv (m : bytes) (envp : list Z) (name : Z) : outcome (option Z) :=
  do l <- gotcha_strlen m name; getenv_loop m envp name (s32 l).

(** debug_init, src/gotcha_utils.c:25-44, in the build with GOTCHA's own libc functions; [name] points to
    "GOTCHA_DEBUG" (src/gotcha_utils.h:43).  The state is (debug_initialized, debug_level), initially
    (false, 0).  The message is not modelled. *)
Definition debug_init (m : bytes) (envp : list Z) (name : Z) (d : bool * Z) : outcome (bool * Z) :=
  let '(initialized, level) := d in
  if initialized then Ok (true, level)
  else
    do r <- gotcha_getenv m envp name;
    match r with
    | None => Ok (true, level)
    | Some s => do l <- gotcha_atoi m s; Ok (true, if l <=? 0 then 1 else l)
    end.

(** *** gotcha_int_printf *)
(** int pos, char buffer[4096], int num_printed; [p_out] are the contents passed to gotcha_write so far, one list
    per call (the result of gotcha_write is ignored by the code). *)
Record pstate := mkP { p_pos : Z; p_buf : list Z; p_num : Z; p_out : list (list Z) }.
Definition buffer_size : Z := 4096.
(** add_to_buffer, src/libc_wrappers.c:369-384; the result is the new str *)
Fixpoint add_loop (fuel : nat) (m : bytes) (str : Z) (print_percent : bool) (p : pstate) : outcome (Z * pstate) :=
  match fuel with
  | O => Fault NoTermination
  | S f =>
    do c <- ld m str;
    if negb (c =? 0) && (print_percent || negb (c =? 37)) then
      do p <- (if p_pos p >=? buffer_size
               then do n <- int_op (p_num p + buffer_size);
                    Ok (mkP 0 (p_buf p) n (p_out p ++ [firstn (Z.to_nat buffer_size) (p_buf p)]))
               else Ok (mkP (p_pos p) (upd (p_buf p) (Z.to_nat (p_pos p)) (fun _ => c)) (p_num p) (p_out p)));
      add_loop f m (str + 1) print_percent (mkP (p_pos p + 1) (p_buf p) (p_num p) (p_out p))
    else Ok (str, p)
  end.
Definition add_to_buffer (m : bytes) (str : Z) (print_percent : bool) (p : pstate) : outcome (Z * pstate) :=
  add_loop (S (length m)) m str print_percent p.

(** a local array of [n] bytes; its initial content does not matter *)
Definition local (n : nat) : bytes := repeat (Some 0) n.
(** a string literal or a local array holding a string *)
Definition literal (s : cstr) : bytes := map Some s ++ [Some 0].

(** the length modifiers: char_width ... size_width *)
Inductive width := WNone | WChar | WShort | WLong | WLongLong | WSize.
Definition s8 (z : Z) : Z := let r := z mod 256 in if r <? 128 then r else r - 256.
Definition s16 (z : Z) : Z := let r := z mod 65536 in if r <? 32768 then r else r - 65536.
(** va_arg: each argument occupies a 64-bit slot *)
Definition va_slot (args : list Z) : outcome (Z * list Z) :=
  match args with [] => Fault OutOfBounds | a :: r => Ok (a, r) end.
(** src/libc_wrappers.c:431-444 *)
Definition signed_arg (w : width) (a : Z) : Z :=
  match w with WNone => s32 a | WChar => s8 (s32 a) | WShort => s16 (s32 a) | WLong | WLongLong | WSize => s64 a end.
(** src/libc_wrappers.c:451-464 and 472-485 *)
Definition unsigned_arg (w : width) (a : Z) : Z :=
  match w with WNone => u32 a | WChar => u32 a mod 256 | WShort => u32 a mod 65536 | WLong | WLongLong => u64 a | WSize => u64 (s64 a) end.

(** slong_to_str(val, numstr, 64); add_to_buffer(numstr, ..., 1) and the like *)
Definition print_num (r : outcome (bytes * Z)) (p : pstate) : outcome pstate :=
  do ' (numstr, _) <- r; do ' (_, p) <- add_to_buffer numstr 0 true p; Ok p.
Definition print_lit (s : cstr) (p : pstate) : outcome pstate :=
  do ' (_, p) <- add_to_buffer (literal s) 0 true p; Ok p.

(** the conversion character [c], src/libc_wrappers.c:428-508 *)
Definition convert (m : bytes) (c : Z) (w : width) (args : list Z) (p : pstate) : outcome (list Z * pstate) :=
  if (c =? 100) || (c =? 105) then (* d i *)
    do ' (a, args) <- va_slot args;
    do p <- print_num (slong_to_str (local 64) (signed_arg w a) 0 64) p; Ok (args, p)
  else if c =? 117 then (* u *)
    do ' (a, args) <- va_slot args;
    do p <- print_num (ulong_to_str (local 64) (unsigned_arg w a) 0 64) p; Ok (args, p)
  else if (c =? 120) || (c =? 88) || (c =? 112) then (* x X p *)
    do ' (a, args) <- va_slot args;
    if negb (c =? 112) then
      do p <- print_num (ulong_to_hexstr (local 64) (unsigned_arg w a) 0 64 (c =? 88)) p; Ok (args, p)
    else
      do p <- print_lit [48; 120] p;
      do p <- print_num (ulong_to_hexstr (local 64) (u64 a) 0 64 (c =? 88)) p; Ok (args, p)
  else if c =? 99 then (* c *)
    do ' (a, args) <- va_slot args;
    do ' (_, p) <- add_to_buffer [Some (u32 a mod 256); Some 0] 0 true p; Ok (args, p)
  else if c =? 115 then (* s *)
    do ' (a, args) <- va_slot args;
    do ' (_, p) <- add_to_buffer m a true p; Ok (args, p)
  else if c =? 37 then (* % *)
    do p <- print_lit [37] p; Ok (args, p)
  else
    do p <- print_lit [37; c] p; Ok (args, p).

(** done: src/libc_wrappers.c:512-516; the result are the calls of gotcha_write and the return value *)
Definition finish (p : pstate) : outcome (list (list Z) * Z) :=
  do n <- int_op (p_num p + p_pos p);
  Ok (p_out p ++ [firstn (Z.to_nat (p_pos p)) (p_buf p)], n).
(** inc(S): S++ and, at the end of the format, goto done *)
Definition inc {A} (m : bytes) (str : Z) (done : outcome A) (k : Z -> Z -> outcome A) : outcome A :=
  do c <- ld m (str + 1); if c =? 0 then done else k (str + 1) c.
(** the while loop, src/libc_wrappers.c:402-510 *)
Fixpoint printf_loop (fuel : nat) (m : bytes) (str : Z) (args : list Z) (p : pstate) : outcome (list (list Z) * Z) :=
  match fuel with
  | O => Fault NoTermination
  | S f =>
    do c <- ld m str;
    if c =? 0 then finish p
    else
      do ' (str, p) <- add_to_buffer m str false p;
      do c <- ld m str;
      if c =? 0 then finish p
      else if negb (c =? 37) then Fault AssertFailed
      else
        inc m str (finish p) (fun str c =>
        let conv (w : width) (str c : Z) :=
          do ' (args, p) <- convert m c w args p;
          inc m str (finish p) (fun str _ => printf_loop f m str args p) in
        if c =? 104 then (* h *)
          do d <- ld m (str + 1);
          if d =? 104 then inc m str (finish p) (fun str c => inc m str (finish p) (fun str c => conv WChar str c))
          else inc m str (finish p) (fun str c => conv WShort str c)
        else if c =? 108 then (* l *)
          do d <- ld m (str + 1);
          if d =? 108 then inc m str (finish p) (fun str c => inc m str (finish p) (fun str c => conv WLongLong str c))
          else inc m str (finish p) (fun str c => conv WLong str c)
        else if c =? 122 then (* z *) inc m str (finish p) (fun str c => conv WSize str c)
        else conv WNone str c)
  end.
(** gotcha_int_printf, src/libc_wrappers.c:386-517; [buf] is the initial content of the buffer *)
Definition gotcha_int_printf (m : bytes) (format : Z) (args : list Z) (buf : list Z) : outcome (list (list Z) * Z) :=
  printf_loop (S (length m)) m format args (mkP 0 buf 0 []).

(** *** gotcha_assert_fail, src/libc_wrappers.c:260-277, and gotcha_open, :308-328 *)
(** the [n] bytes the kernel reads from [p] in write(fd, p, n) *)
Fixpoint read_bytes (n : nat) (m : bytes) (p : Z) : outcome (list Z) :=
  match n with O => Ok [] | S k => do c <- ld m p; do r <- read_bytes k m (p + 1); Ok (c :: r) end.
(** gotcha_write(2, p, gotcha_strlen(p)) *)
Definition write_str (m : bytes) (p : Z) : outcome (list Z) := do n <- gotcha_strlen m p; read_bytes (Z.to_nat n) m p.
(** what is passed to gotcha_write(2, ...), one list per call; afterwards the process kills itself with SIGABRT.
    [line] is an unsigned int. *)
Definition gotcha_assert_fail (m : bytes) (s file line function : Z) : outcome (list (list Z)) :=
  do ' (linestr, result) <- ulong_to_str (local 64) line 0 63;
  do linestr <- (if result =? -1 then st linestr 0 0 else Ok linestr);
  do w1 <- write_str m file;
  do w3 <- write_str linestr 0;
  do w5 <- write_str m function;
  do w7 <- write_str m s;
  Ok [w1; of_string ":"; w3; of_string ": "; w5; of_string ": Assertion `"; w7; of_string "' failed." ++ [10]].
(** the system call made by gotcha_open: flags and mode; [args] are the variable arguments.  O_CREAT is 0100. *)
Definition O_CREAT : Z := 64.
Definition gotcha_open (flags : Z) (args : list Z) : outcome (Z * Z) :=
  if negb (Z.land flags O_CREAT =? 0) then do ' (a, _) <- va_slot args; Ok (flags, u32 a) else Ok (flags, 0).

(** *** version macros, cmake/gotcha_config.h.in:4-8 *)
Definition GOTCHA_GET_VERSION (major minor patch : Z) : Z := major * 100000 + minor * 100 + patch.
Definition VERSION_MAJOR (v : Z) : Z := v / 100000.
Definition VERSION_MINOR (v : Z) : Z := (v / 100) mod 1000.
Definition VERSION_PATCH (v : Z) : Z := v mod 100.
