(** Vocabulary for the statements about the internal libc functions. *)
From Verif Require Import Base LibcModel.

(** the byte at address [a] is accessible and equals [b] *)
Definition holds (m : bytes) (a b : Z) : Prop := 0 <= a /\ nth_error m (Z.to_nat a) = Some (Some b).
(** the bytes [l] are stored from address [p] *)
Fixpoint bytes_at (m : bytes) (p : Z) (l : list Z) : Prop :=
  match l with [] => True | b :: r => holds m p b /\ bytes_at m (p + 1) r end.
(** [p] points to the C string [s] *)
Definition str_at (m : bytes) (p : Z) (s : cstr) : Prop := wf_cstr s /\ bytes_at m p (s ++ [0]).
(** [p] points to an array whose first [n] bytes hold the string [s]: either [s] is terminated or it fills
    them *)
Definition nstr_at (m : bytes) (p n : Z) (s : cstr) : Prop :=
  wf_cstr s /\ ((Z.of_nat (length s) < n /\ bytes_at m p (s ++ [0])) \/ (Z.of_nat (length s) = n /\ bytes_at m p s)).
(** the bytes from [p] up to [p + n] may be accessed *)
Definition accessible (m : bytes) (p n : Z) : Prop := forall a, p <= a < p + n -> exists b, holds m a b.
(** [m'] is [m] except for the bytes from [p] up to [p + n] *)
Definition same_but (m m' : bytes) (p n : Z) : Prop :=
  length m' = length m /\ forall a : nat, ~ p <= Z.of_nat a < p + n -> nth_error m' a = nth_error m a.

(** [r] is a memory with [P] if [n] bytes may be accessed at both places, and an access violation otherwise *)
Definition if_accessible (m : bytes) (p q n : Z) (r : outcome bytes) (P : bytes -> Prop) : Prop :=
  (accessible m p n -> accessible m q n -> exists m', r = Ok m' /\ P m') /\
  (~ accessible m p n \/ ~ accessible m q n -> r = Fault OutOfBounds).

(** lengths that an int can count *)
Definition short (s : cstr) : Prop := Z.of_nat (length s) <= INT_MAX.

(** *** substrings *)
Definition occurs_at (needle hay : cstr) (i : nat) : Prop := exists suf, skipn i hay = needle ++ suf /\ (i <= length hay)%nat.
Definition first_occurrence (needle hay : cstr) (i : nat) : Prop :=
  occurs_at needle hay i /\ forall j, occurs_at needle hay j -> (i <= j)%nat.

(** *** positional notation *)
Definition number (base : Z) (ds : list Z) : Z := fold_left (fun v d => v * base + d) ds 0.
(** [ds] are the digits of [num], most significant first, without leading zero *)
Definition canonical (base num : Z) (ds : list Z) : Prop :=
  Forall (fun d => 0 <= d < base) ds /\ number base ds = num /\ (ds = [0] \/ exists d r, ds = d :: r /\ d <> 0).
(** decimal and hexadecimal digits as characters *)
Definition dec_char (d : Z) : Z := 48 + d.
Definition hex_char (uppercase : bool) (d : Z) : Z := if d <? 10 then 48 + d else if uppercase then 55 + d else 87 + d.
(** [s] is the decimal representation of the signed number [num] *)
Definition decimal (num : Z) (s : cstr) : Prop :=
  exists ds, canonical 10 (Z.abs num) ds /\ s = (if num <? 0 then [45] else []) ++ map dec_char ds.
Definition hexadecimal (uppercase : bool) (num : Z) (s : cstr) : Prop :=
  exists ds, canonical 16 num ds /\ s = map (hex_char uppercase) ds.

(** *** the environment: the strings to which the entries point *)
Definition env_at (m : bytes) (envp : list Z) (env : list cstr) : Prop := Forall2 (str_at m) envp env.
(** [e] has the form name=value *)
Definition sets (name value e : cstr) : Prop := e = name ++ 61 :: value.

(** *** what a printf format means *)
Definition width_chars (w : width) : cstr :=
  match w with WNone => [] | WChar => [104; 104] | WShort => [104] | WLong => [108] | WLongLong => [108; 108] | WSize => [122] end.
Definition width_bits (w : width) : Z :=
  match w with WNone => 32 | WChar => 8 | WShort => 16 | _ => 64 end.
(** the argument slot [a] passed to a directive of width [w] denotes the signed / unsigned number [v] *)
Definition denotes_signed (w : width) (a v : Z) : Prop :=
  - 2 ^ (width_bits w - 1) <= v < 2 ^ (width_bits w - 1) /\ exists k, a = v + k * 2 ^ width_bits w.
Definition denotes_unsigned (w : width) (a v : Z) : Prop :=
  0 <= v < 2 ^ width_bits w /\ exists k, a = v + k * 2 ^ width_bits w.

(** [expands m format args out]: with the arguments [args] (one 64-bit slot each) the format yields [out].
    The directives are those of the C standard that gotcha_int_printf knows.  Excluded are [%c] with the NUL
    character and [%d] with LONG_MIN: see the refutations. *)
Inductive expands (m : bytes) : cstr -> list Z -> cstr -> Prop :=
| ExNil args : expands m [] args []
| ExChar c f args out : c <> 37 -> expands m f args out -> expands m (c :: f) args (c :: out)
| ExPercent f args out : expands m f args out -> expands m (37 :: 37 :: f) args (37 :: out)
| ExSigned w c a v s f args out :
    c = 100 \/ c = 105 -> denotes_signed w a v -> v <> - 2 ^ 63 -> decimal v s ->
    expands m f args out -> expands m (37 :: width_chars w ++ c :: f) (a :: args) (s ++ out)
| ExUnsigned w a v s f args out :
    denotes_unsigned w a v -> decimal v s ->
    expands m f args out -> expands m (37 :: width_chars w ++ 117 :: f) (a :: args) (s ++ out)
| ExHex w c a v s f args out :
    c = 120 \/ c = 88 -> denotes_unsigned w a v -> hexadecimal (c =? 88) v s ->
    expands m f args out -> expands m (37 :: width_chars w ++ c :: f) (a :: args) (s ++ out)
| ExPointer a s f args out :
    0 <= a < two64 -> hexadecimal false a s ->
    expands m f args out -> expands m (37 :: 112 :: f) (a :: args) (48 :: 120 :: s ++ out)
| ExCharArg a c f args out :
    0 < c < 256 -> (exists k, a = c + k * 256) ->
    expands m f args out -> expands m (37 :: 99 :: f) (a :: args) (c :: out)
| ExString a s f args out :
    str_at m a s -> expands m f args out -> expands m (37 :: 115 :: f) (a :: args) (s ++ out).

(** *** what the code makes of an arbitrary format *)
(** the conversion character [c] after the length modifier [w]: modifiers are ignored where they make no sense, an
    unknown conversion is printed without its modifier, and a NUL character vanishes *)
Inductive directive (m : bytes) (w : width) : Z -> list Z -> list Z -> cstr -> Prop :=
| DSigned c a v s args : c = 100 \/ c = 105 -> denotes_signed w a v -> v <> - 2 ^ 63 -> decimal v s -> directive m w c (a :: args) args s
| DUnsigned a v s args : denotes_unsigned w a v -> decimal v s -> directive m w 117 (a :: args) args s
| DHex c a v s args : c = 120 \/ c = 88 -> denotes_unsigned w a v -> hexadecimal (c =? 88) v s -> directive m w c (a :: args) args s
| DPointer a v s args : denotes_unsigned WLong a v -> hexadecimal false v s -> directive m w 112 (a :: args) args (48 :: 120 :: s)
| DCharArg a c args : 0 < c < 256 -> (exists k, a = c + k * 256) -> directive m w 99 (a :: args) args [c]
| DNul k args : directive m w 99 (k * 256 :: args) args []
| DString a s args : str_at m a s -> directive m w 115 (a :: args) args s
| DPercent args : directive m w 37 args args [37]
| DOther c args : ~ In c [100; 105; 117; 120; 88; 112; 99; 115; 37] -> directive m w c args args [37; c].
(** the modifier read before [c] is [w], not a longer one *)
Definition modifier (w : width) (c : Z) : Prop :=
  match w with WNone => c <> 104 /\ c <> 108 /\ c <> 122 | WShort => c <> 104 | WLong => c <> 108 | _ => True end.
(** a format that ends within a directive ends before it *)
Inductive writes (m : bytes) : cstr -> list Z -> cstr -> Prop :=
| WrNil args : writes m [] args []
| WrChar c f args out : c <> 37 -> writes m f args out -> writes m (c :: f) args (c :: out)
| WrCut w args : writes m (37 :: width_chars w) args []
| WrDir w c f args args' s out : modifier w c -> directive m w c args args' s -> writes m f args' out ->
    writes m (37 :: width_chars w ++ c :: f) args (s ++ out).

(** what the code prints instead: each byte at a multiple of 4096 is replaced by the first one *)
Definition repeats_first (s : cstr) : cstr :=
  map (fun i => nth (if Z.of_nat i mod 4096 =? 0 then 0 else i) s 0) (seq 0 (length s)).

(** *** how output is handed to the kernel *)
(** in pieces of 4096 bytes and a rest, which is not empty unless it is the only piece *)
Definition pieces (s : cstr) (calls : list (list Z)) : Prop :=
  concat calls = s /\ exists full rest, calls = full ++ [rest] /\ Forall (fun c => Z.of_nat (length c) = 4096) full /\
    Z.of_nat (length rest) <= 4096 /\ (full <> [] -> rest <> []).
(** what arrives if the kernel takes [k] bytes at most of the first call, and so on; beyond the list it takes all *)
Fixpoint received (ks : list nat) (calls : list (list Z)) : cstr :=
  match calls, ks with
  | [], _ => []
  | c :: r, [] => c ++ received [] r
  | c :: r, k :: ks => firstn k c ++ received ks r
  end.

(** *** versions *)
Definition version_lt (a b : Z * Z * Z) : Prop :=
  let '(ma, mi, pa) := a in let '(mb, mj, pb) := b in
  ma < mb \/ ma = mb /\ (mi < mj \/ mi = mj /\ pa < pb).
Definition in_range (v : Z * Z * Z) : Prop := let '(ma, mi, pa) := v in 0 <= ma /\ 0 <= mi < 1000 /\ 0 <= pa < 100.

(** *** the form of a number read by atoi: minus signs, digits, and something that is no digit *)
Definition int_form (s : cstr) (signs : nat) (ds : list Z) (rest : cstr) : Prop :=
  s = repeat 45 signs ++ map dec_char ds ++ rest /\ Forall (fun d => 0 <= d < 10) ds /\
  (forall c r, rest = c :: r -> ~ 48 <= c <= 57 /\ (ds = [] -> c <> 45)).
