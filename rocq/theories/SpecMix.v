(** The sequence of calls that interleaved calls amount to. *)
From Verif Require Import Base HashModel ElfModel ToolModel CoreModel SpecCore SpecRun OverlapModel SpecOverlap MixModel.

(** the whole calls *)
Definition wholes (acts : list act) : list op := flat_map (fun a => match a with AOp o => [o] | AStep _ => [] end) acts.
(** a call of gotcha_wrap is a thread of its own *)
Definition side (o : op) : Prop := match o with OWrap _ _ => False | _ => True end.
(** how many steps thread [i] has made *)
Definition made (i : nat) (acts : list act) : nat :=
  length (filter (fun a => match a with AStep j => Nat.eqb j i | AOp _ => false end) acts).
(** what one step amounts to: the first step of a call is a call of gotcha_wrap without bindings, the following ones are calls with one
    binding each, the last is nothing.  Whole calls have the number that follows those of the threads. *)
Definition piece (calls : list (list ubind * option cstr)) (before : list act) (a : act) : list (nat * op) :=
  match a with
  | AOp o => [(length calls, o)]
  | AStep i =>
    match nth_error calls i with
    | None => []
    | Some (l, t) =>
      match made i before with
      | O => [(i, OWrap [] t)]
      | S j => match nth_error l j with Some u => [(i, OWrap [u] t)] | None => [] end
      end
    end
  end.
Fixpoint linear (calls : list (list ubind * option cstr)) (before acts : list act) : list (nat * op) :=
  match acts with
  | [] => []
  | a :: r => piece calls before a ++ linear calls (before ++ [a]) r
  end.
(** the calls that are made in place of the interleaved ones *)
Definition in_line (calls : list (list ubind * option cstr)) (acts : list act) : list (nat * op) := linear calls [] acts.

(** the next step updates the call sites: a stage of gotcha_wrap that does, or what GOTCHA does at the end of dlopen *)
Definition update_act (cs : list wcall) (x : act) : Prop :=
  match x with AStep i => exists c, nth_error cs i = Some c /\ updates_next c | AOp o => o = OFinish end.
(** calls that change neither the libraries nor the filter *)
Definition same_libs (o : op) : Prop := match o with OSetPriority _ _ | OGetPriority _ | OFinish => True | _ => False end.
