(** Vocabulary for the messages: which arguments a format asks for. *)
From Verif Require Import Base LibcModel SpecLibc MsgModel.

Lemma kind_eq_dec (a b : kind) : {a = b} + {a <> b}.
Proof. decide equality. Defined.

(** the directives of a format and the types the C standard asks for: %% none, %d int, %u and %x unsigned int, %lu and %lx
    unsigned long, %p a pointer, %s a string *)
Inductive format_kinds : cstr -> list kind -> Prop :=
| FkNil : format_kinds [] []
| FkChar c f ks : c <> 37 -> format_kinds f ks -> format_kinds (c :: f) ks
| FkPercent f ks : format_kinds f ks -> format_kinds (37 :: 37 :: f) ks
| FkD f ks : format_kinds f ks -> format_kinds (37 :: 100 :: f) (KInt :: ks)
| FkU f ks : format_kinds f ks -> format_kinds (37 :: 117 :: f) (KUInt :: ks)
| FkX f ks : format_kinds f ks -> format_kinds (37 :: 120 :: f) (KUInt :: ks)
| FkLU f ks : format_kinds f ks -> format_kinds (37 :: 108 :: 117 :: f) (KULong :: ks)
| FkLX f ks : format_kinds f ks -> format_kinds (37 :: 108 :: 120 :: f) (KULong :: ks)
| FkP f ks : format_kinds f ks -> format_kinds (37 :: 112 :: f) (KPtr :: ks)
| FkS f ks : format_kinds f ks -> format_kinds (37 :: 115 :: f) (KStr :: ks).

(** [a] is the 64-bit slot of an argument of type [k]: an int may have anything in its upper half; a string can be read *)
Definition given (m : bytes) (k : kind) (a : Z) : Prop :=
  match k with
  | KInt | KUInt => True
  | KULong | KPtr => 0 <= a < 18446744073709551616
  | KStr => exists s, str_at m a s
  end.

(** at debug level [level] (0 without GOTCHA_DEBUG) the message is printed *)
Definition heard (level : Z) (g : gate) : Prop := match g with Debug n | Bare n => n <= level | Error => level <> 0 end.

(** what a message is made of: "[thread/process][file:line] - " before the text, "ERROR " before an error; nothing before a
    bare message *)
Definition whole_format (g : msg) : cstr :=
  match g_gate g with
  | Bare _ => g_fmt g
  | Debug _ => [91; 37; 100; 47; 37; 100; 93; 91; 37; 115; 58; 37; 117; 93; 32; 45; 32] ++ g_fmt g
  | Error => [69; 82; 82; 79; 82; 32; 91; 37; 100; 47; 37; 100; 93; 91; 37; 115; 58; 37; 117; 93; 32; 45; 32] ++ g_fmt g
  end.
Definition whole_args (g : gate) (tid pid file line : Z) (args : list Z) : list Z :=
  match g with Bare _ => args | _ => tid :: pid :: file :: line :: args end.
