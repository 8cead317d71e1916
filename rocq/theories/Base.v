(** Common vocabulary of the model: outcomes, machine integers, arrays, C strings.
    Nothing here models GOTCHA code except [strhash], which is used by several modules. *)
From Coq Require Export List ZArith Lia Bool.
From Coq Require Import String Ascii.
Export ListNotations.
Global Open Scope Z_scope.

(** Ways in which the C program leaves defined, terminating behaviour. *)
Inductive fault :=
| NullDeref          (* dereference of NULL or of a destroyed object *)
| DivByZero          (* integer division or remainder by zero *)
| OutOfBounds        (* access outside an array / table *)
| SignedOverflow     (* overflow of a signed C integer *)
| AssertFailed       (* gotcha_assert or assert failed: the process is killed *)
| NoTermination.     (* loop or recursion that exceeded the fuel of the model *)

Inductive outcome (A : Type) :=
| Ok (a : A)
| Fault (f : fault).
Arguments Ok {A} a.
Arguments Fault {A} f.

Definition bind {A B} (o : outcome A) (k : A -> outcome B) : outcome B :=
  match o with Ok a => k a | Fault f => Fault f end.

Notation "'do' x <- e ; k" := (bind e (fun x => k))
  (at level 200, x name, e at level 100, k at level 200, right associativity).
Notation "'do' ' p <- e ; k" := (bind e (fun x => match x with p => k end))
  (at level 200, p strict pattern, e at level 100, k at level 200, right associativity).

(** Fixed-width integers (LP64). *)
Definition two32 : Z := 4294967296.
Definition two64 : Z := 18446744073709551616.
Definition u32 (z : Z) : Z := z mod two32.
Definition u64 (z : Z) : Z := z mod two64.
(** value of a 32-bit pattern read as a signed int *)
Definition s32 (z : Z) : Z :=
  let r := z mod two32 in if r <? 2147483648 then r else r - two32.
(** value of a 64-bit pattern read as a signed long *)
Definition s64 (z : Z) : Z :=
  let r := z mod two64 in if r <? 9223372036854775808 then r else r - two64.
Definition INT_MAX : Z := 2147483647.
Definition INT_MIN : Z := -2147483648.
Definition in_int (z : Z) : bool := (INT_MIN <=? z) && (z <=? INT_MAX).

(** Arrays are lists; [upd] is assignment to one element (no effect out of range). *)
Fixpoint upd {A} (l : list A) (i : nat) (f : A -> A) : list A :=
  match l, i with
  | [], _ => []
  | x :: r, O => f x :: r
  | x :: r, S j => x :: upd r j f
  end.

(** C strings: the bytes before the terminating NUL, each in 1..255. *)
Definition cstr := list Z.

Fixpoint of_string (s : string) : cstr :=
  match s with
  | EmptyString => []
  | String a r => Z.of_nat (nat_of_ascii a) :: of_string r
  end.

Definition cstr_eq_dec : forall a b : cstr, {a = b} + {a <> b} := list_eq_dec Z.eq_dec.
Definition cstr_eqb (a b : cstr) : bool := if cstr_eq_dec a b then true else false.

(** plain [char] is signed on x86-64: value of a byte read through [char *] *)
Definition schar (b : Z) : Z := if b <? 128 then b else b - 256.

(** A C string is well formed when it contains no NUL and only byte values. *)
Definition wf_cstr (s : cstr) : Prop := Forall (fun b => 1 <= b <= 255) s.

(** [strcmp] of the C library, used through the macro gotcha_strcmp (libc_wrappers.h:39)
    in the default build.  Bytes are compared as unsigned char. *)
Fixpoint libc_strcmp (a b : cstr) : Z :=
  match a, b with
  | [], [] => 0
  | [], _ :: _ => -1
  | _ :: _, [] => 1
  | x :: a', y :: b' => if x =? y then libc_strcmp a' b' else (if x <? y then -1 else 1)
  end.

(** [strhash]: src/hash.c:214-221.
    hash is unsigned long, c is an int holding a (signed) char; result cast to int. *)
Definition strhash (s : cstr) : Z :=
  s32 (fold_left (fun h c => u64 (h * 33 + schar c)) s 5381).
