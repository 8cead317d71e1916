(** The calls of gotcha_wrap that interleaved calls amount to. *)
From Verif Require Import Base HashModel ElfModel ToolModel CoreModel SpecCore SpecRun OverlapModel.

(** a call of gotcha_wrap cut into calls with one binding each *)
Definition parts (c : list ubind * option cstr) : list op :=
  match fst c with [] => [OWrap [] (snd c)] | l => map (fun u => OWrap [u] (snd c)) l end.
(** the calls of thread [i], and their results, in a list of calls of several threads *)
Definition of_call {A} (i : nat) (ws : list (nat * A)) : list A := map snd (filter (fun p => Nat.eqb (fst p) i) ws).
Definition results_of (i : nat) (ws : list (nat * op)) (xs : list res) : list res := of_call i (combine (map fst ws) xs).
(** GOTCHA_SUCCESS is 0 *)
Definition failed (r : res) : bool := match r with RCode c => negb (c =? 0) | _ => false end.
(** [ws] is a way to make the calls with one binding each, one after another, each thread's in order *)
Record merges (calls : list (list ubind * option cstr)) (ws : list (nat * op)) : Prop := {
  mg_of : forall i c, nth_error calls i = Some c -> of_call i ws = parts c;
  mg_all : forall p, In p ws -> (fst p < length calls)%nat }.
(** the calls as calls of the sequential model *)
Definition call_ops (calls : list (list ubind * option cstr)) : list op := map (fun c => OWrap (fst c) (snd c)) calls.
(** all threads have returned *)
Definition all_returned (cs : list wcall) : Prop := forall c, In c cs -> exists code, wc_at c = Returned code.
(** the next step of a call is an update of the call sites *)
Definition updates_next (c : wcall) : Prop := match wc_at c with AtLoop _ O _ pr => pr_new pr <> None | _ => False end.
(** none of the calls is a first wrap of main: it was bound before, or they do not bind it *)
Definition main_settled (ops : list op) (calls : list (list ubind * option cstr)) : Prop :=
  main_bound ops \/ forall c u, In c calls -> In u (fst c) -> ub_name u <> n_main.
