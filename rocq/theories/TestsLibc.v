(** The unit tests of the repository (/repo/test/unit/gotcha_unit_tests.c) for the internal libc functions, the allocator, the hash tables and
    the parser of /proc, replayed on the model: the model gives what the tests demand of the program.  They check the
    model, not the code; no property rests on them. *)
From Verif Require Import Base HashModel LibcModel AuxvModel AllocModel.
From Coq Require String.
Import String.StringSyntax.
Open Scope string_scope.
Open Scope list_scope.
Open Scope Z_scope.

(** strings one after the other in memory, from address 1 *)
Definition layout (l : list cstr) : bytes := None :: flat_map literal l.
Definition two (a b : String.string) : bytes := layout [of_string a; of_string b].
Definition second (a : String.string) : Z := 2 + Z.of_nat (String.length a).
Definition strcmp2 a b := gotcha_strcmp (two a b) 1 (second a).
Definition strncmp2 a b n := gotcha_strncmp (two a b) 1 (second a) n.
Definition strstr2 a b := gotcha_strstr (two a b) 1 (second a).
Definition is_neg (r : outcome Z) : bool := match r with Ok z => z <? 0 | Fault _ => false end.
Definition is_pos (r : outcome Z) : bool := match r with Ok z => 0 <? z | Fault _ => false end.
Definition is_null (r : outcome (option Z)) : bool := match r with Ok None => true | _ => false end.
Definition not_null (r : outcome (option Z)) : bool := match r with Ok (Some _) => true | _ => false end.

(** gotcha_strcmp_test *)
Example test_strcmp :
  strncmp2 "dogsaregood" "dogsisgreat" 4 = Ok 0 /\ is_neg (strncmp2 "dogsaregood" "dogsisgreat" 5) = true /\
  is_neg (strncmp2 "dogs" "pups" 999) = true /\ strncmp2 "dogs" "dogs" 999 = Ok 0 /\
  is_neg (strcmp2 "dogs" "pups") = true /\ is_pos (strcmp2 "pups" "dogs") = true /\ strcmp2 "dogs" "dogs" = Ok 0 /\
  not_null (strstr2 "dogs" "og") = true /\ is_null (strstr2 "dogs" "gsa") = true /\ is_null (strstr2 "dogs" "cats") = true /\ is_null (strstr2 "dogs" "doges") = true /\
  gotcha_strnlen (layout [of_string "dogs"]) 1 10 = Ok 4.
Proof. vm_compute. repeat split. Qed.
(** char v1[10] = "dogs"; gotcha_strncat(v1, "cats", 5) *)
Example test_strncat : gotcha_strncat (literal (of_string "dogs") ++ repeat (Some 0) 5 ++ literal (of_string "cats")) 0 10 5 =
  Ok (literal (of_string "dogscats") ++ [Some 0] ++ literal (of_string "cats")).
Proof. vm_compute. reflexivity. Qed.

(** gotcha_atoi_test *)
Definition atoi1 a := gotcha_atoi (layout [of_string a]) 1.
Example test_atoi : atoi1 "-82" = Ok (-82) /\ atoi1 "--82" = Ok 82 /\ atoi1 "99999993" = Ok 99999993.
Proof. vm_compute. auto. Qed.

(** gotcha_memcpy_test, with bytes *)
Example test_memcpy : gotcha_memcpy (map Some (map Z.of_nat (seq 0 40)) ++ repeat (Some 99) 40) 40 0 40 = Ok (map Some (map Z.of_nat (seq 0 40)) ++ map Some (map Z.of_nat (seq 0 40))).
Proof. vm_compute. reflexivity. Qed.

(** printf_test: format, arguments, what snprintf prints *)
Inductive parg := I (z : Z) | Str (s : cstr).
Fixpoint place_args (from : Z) (l : list parg) : list cstr * list Z :=
  match l with
  | [] => ([], [])
  | I z :: r => let (ss, zs) := place_args from r in (ss, u64 z :: zs)
  | Str s :: r => let (ss, zs) := place_args (from + Z.of_nat (length s) + 1) r in (s :: ss, from :: zs)
  end.
Definition printf (fmt : cstr) (l : list parg) : outcome (list (list Z) * Z) :=
  let (ss, zs) := place_args (2 + Z.of_nat (length fmt)) l in gotcha_int_printf (layout (fmt :: ss)) 1 zs (repeat 0 4096).
Definition prints (fmt : cstr) (l : list parg) (out : cstr) : Prop := printf fmt l = Ok ([out], Z.of_nat (length out)).
Definition p (a : String.string) : cstr := of_string a ++ [10].
Definition q (a : String.string) : parg := Str (of_string a).
Example test_printf_signed :
  prints (p "Hello, World!") [] (p "Hello, World!") /\
  prints (p "%hhd is signed char") [I (-50)] (p "-50 is signed char") /\ prints (p "%hd is signed short") [I (-5000)] (p "-5000 is signed short") /\
  prints (p "%d is signed int") [I (-5000000)] (p "-5000000 is signed int") /\ prints (p "%ld is signed long") [I (-50000000000)] (p "-50000000000 is signed long") /\
  prints (p "%lld is signed long long") [I (-5000000000)] (p "-5000000000 is signed long long") /\ prints (p "%zd is ssize_t") [I (-5)] (p "-5 is ssize_t") /\
  prints (p "All together: %hhd %hd %d %ld %lld %zd") (repeat (I (-5)) 6) (p "All together: -5 -5 -5 -5 -5 -5") /\
  prints (p "%hhi is signed char") [I (-10)] (p "-10 is signed char") /\ prints (p "%i is signed int") [I 2000000] (p "2000000 is signed int") /\
  prints (p "All together: %hhi %hi %i %li %lli %zi") (repeat (I 2) 6) (p "All together: 2 2 2 2 2 2") /\
  prints (p "All together: %hhd %hd %d %ld %lld %zd") (repeat (I 0) 6) (p "All together: 0 0 0 0 0 0").
Proof. vm_compute. repeat split. Qed.
Example test_printf_unsigned :
  prints (p "%hhu is unsigned char") [I 10] (p "10 is unsigned char") /\ prints (p "%hx is unsigned short") [I 2000] (p "7d0 is unsigned short") /\
  prints (p "%x is unsigned int") [I 2000000] (p "1e8480 is unsigned int") /\ prints (p "%lX is unsigned long") [I 30000000000] (p "6FC23AC00 is unsigned long") /\
  prints (p "%llu is unsigned long long") [I 1000000000] (p "1000000000 is unsigned long long") /\ prints (p "%zX is size_t") [I 3] (p "3 is size_t") /\
  prints (p "All together: %hhu %hu %u %lu %llu %zu") (repeat (I 0) 6) (p "All together: 0 0 0 0 0 0") /\
  prints (of_string "%p is the address of buffer") [I 140737488355000] (of_string "0x7ffffffffeb8 is the address of buffer").
Proof. vm_compute. repeat split. Qed.
Example test_printf_strings :
  prints (of_string "%s %s%s %s %s %d%s") [q "I"; q "am "; q "a"; q "string"; q "printer."; I 3; Str (p " is an int")] (p "I am a string printer. 3 is an int") /\
  prints (of_string "%s %s %s") [q "don't interpret "; q "%s"; Str (p " in argument")] (p "don't interpret  %s  in argument") /\
  prints (p "Percent sign looks like %%%s") [q " this"] (p "Percent sign looks like % this") /\
  prints (of_string "single string of characters: " ++ [7; 8; 12; 13; 9; 11; 39; 34; 63; 92; 10]) [] (of_string "single string of characters: " ++ [7; 8; 12; 13; 9; 11; 39; 34; 63; 92; 10]) /\
  prints (p "individual characters %c %c %c %c %c %c %c %c %c %c %c") (map I [7; 8; 12; 13; 9; 11; 10; 39; 34; 63; 92])
    (of_string "individual characters " ++ [7; 32; 8; 32; 12; 32; 13; 32; 9; 32; 11; 32; 10; 32; 39; 32; 34; 32; 63; 32; 92; 10]) /\
  prints (of_string "%c%c%c%c%c%c") (map I [67; 104; 97; 114; 37; 10]) (p "Char%") /\
  prints (p "%y is not a valid code, but %s is.") [q "%s"] (p "%y is not a valid code, but %s is.").
Proof. vm_compute. repeat split. Qed.

(** auxv test: read_hex of "A" *)
Example test_read_hex : read_hex (layout [of_string "A"]) 1 = Ok (10, 1).
Proof. vm_compute. reflexivity. Qed.

(** hash_grow_test with 500 insertions instead of 16384: every key is found with its datum, removed once, and not found a second time *)
Fixpoint dec (fuel : nat) (n : Z) : cstr :=
  match fuel with O => [] | S f => if n <? 10 then [48 + n] else dec f (n / 10) ++ [48 + n mod 10] end.
Definition keys : list (cstr * nat) := map (fun i => (dec 8 (Z.of_nat i), i)) (seq 0 500).
Definition hash0 : outcome (htable cstr nat) := create_hashtable 4096 1 strhash libc_strcmp.
Definition added (l : list (cstr * nat)) : outcome (htable cstr nat) := fold_left (fun t k => do t <- t; addto_hashtable t (fst k) (snd k)) l hash0.
Definition found (t : outcome (htable cstr nat)) (k : cstr * nat) : bool :=
  match t with Ok t => match lookup_hashtable t (fst k) with Ok (Some d) => Nat.eqb d (snd k) | _ => false end | Fault _ => false end.
Definition removed (t : outcome (htable cstr nat)) (k : cstr * nat) : outcome (htable cstr nat) :=
  do t <- t; do ' (t, ok) <- removefrom_hashtable t (fst k); if (ok : bool) then Ok t else Fault AssertFailed.
Example test_hash_grow : forallb (found (added keys)) keys = true.
Proof. vm_compute. reflexivity. Qed.
Example test_hash_remove : match fold_left removed keys (added keys) with
  | Ok t => match removefrom_hashtable t (dec 8 0) with Ok (_, ok) => ok = false | Fault _ => False end
  | Fault _ => False end.
Proof. vm_compute. reflexivity. Qed.

(** gotcha_realloc_test: 40 bytes, written at the end, shrunk to 20, grown to 60, freed.  The kernel maps at 65536 and above. *)
Definition kernel (h : heap) : Z -> option Z := fun _ => Some (65536 * (1 + Z.of_nat (length (h_maps h)))).
Definition h0 : heap := mkHeap (fun _ => None) 0 [] 0.
Definition write_word (h : heap) (a v : Z) : outcome heap := do m <- stw (h_mem h) a v; Ok (mkHeap m (h_free h) (h_maps h) (h_pushes h)).
Definition realloc_test : outcome (list (option Z)) :=
  do ' (h, x) <- gotcha_malloc 4096 (kernel h0) h0 40;
  do h <- write_word h (x + 8) 77;
  do h <- write_word h (x + 32) 5;
  do ' (h, y) <- gotcha_realloc 4096 (kernel h) h x 20;
  do h <- write_word h (y + 16) 5;
  do ' (h, z) <- gotcha_realloc 4096 (kernel h) h y 60;
  do h <- write_word h (z + 56) 6;
  do h' <- gotcha_free h z;
  Ok [h_mem h (z + 8); h_mem h (z + 16); h_mem h (z + 56)].
Example test_realloc : realloc_test = Ok [Some 77; Some 5; Some 6].
Proof. vm_compute. reflexivity. Qed.
(** gotcha_heap_test with 24 blocks instead of 4096: block number j holds j words j + k; allocated in sets of j mod 3, freed in sets of j mod 5 *)
Definition in_sets (d n : nat) : list nat := flat_map (fun i => filter (fun j => Nat.eqb (Nat.modulo j d) i) (seq 0 n)) (seq 0 d).
Definition fill_block (h : outcome heap) (x : Z) (j : nat) : outcome heap :=
  fold_left (fun h k => do h <- h; write_word h (x + 8 * Z.of_nat k) (Z.of_nat (j + k))) (seq 0 j) h.
Definition block_ok (h : heap) (b : nat * Z) : bool :=
  forallb (fun k => match h_mem h (snd b + 8 * Z.of_nat k) with Some v => v =? Z.of_nat (fst b + k) | None => false end) (seq 0 (fst b)).
Definition alloc_one (s : outcome (heap * list (nat * Z))) (j : nat) : outcome (heap * list (nat * Z)) :=
  do ' (h, bs) <- s; do ' (h, x) <- gotcha_malloc 4096 (kernel h) h (8 * Z.of_nat j); do h <- fill_block (Ok h) x j;
  if forallb (block_ok h) bs then Ok (h, (j, x) :: bs) else Fault AssertFailed.
Definition free_one (s : outcome (heap * list (nat * Z))) (j : nat) : outcome (heap * list (nat * Z)) :=
  do ' (h, bs) <- s;
  match find (fun b => Nat.eqb (fst b) j) bs with
  | None => Fault AssertFailed
  | Some b => do h <- gotcha_free h (snd b); let bs := filter (fun b => negb (Nat.eqb (fst b) j)) bs in
              if forallb (block_ok h) bs then Ok (h, bs) else Fault AssertFailed
  end.
Definition heap_round (s : outcome (heap * list (nat * Z))) := fold_left free_one (in_sets 5 24) (fold_left alloc_one (in_sets 3 24) s).
Example test_heap : match heap_round (heap_round (Ok (h0, []))) with Ok (_, []) => True | _ => False end.
Proof. vm_compute. exact Logic.I. Qed.

(** gotcha_version_check; the version of include/gotcha/gotcha_types.h and CMakeLists.txt is at least 1.0.6 *)
Example test_version : GOTCHA_GET_VERSION 1 0 3 > GOTCHA_GET_VERSION 1 0 2.
Proof. vm_compute. reflexivity. Qed.
