(** Calls of gotcha_wrap whose stages interleave with one another and with other calls: priorities, filters, the loading and unloading of
    libraries, and what GOTCHA does at the end of dlopen (src/gotcha_dl.c:144-149).

    Simplification: a stage of gotcha_wrap is one step (see OverlapModel), and so is each other call; dlopen is two, the loading of the
    libraries and what GOTCHA does afterwards. *)
From Verif Require Import Base HashModel ElfModel ToolModel CoreModel OverlapModel.

(** what happens next: a step of thread [i]'s call of gotcha_wrap, or a whole other call by some thread *)
Inductive act := AStep (i : nat) | AOp (o : op).

(** numbers of no thread are passed over; the results are those of the whole calls *)
Fixpoint mrun (e : env) (st : state) (cs : list wcall) (acts : list act) : outcome (state * list wcall * list res) :=
  match acts with
  | [] => Ok (st, cs, [])
  | AStep i :: r =>
    match nth_error cs i with
    | None => mrun e st cs r
    | Some c => do ' (st, c) <- call_step e st c; mrun e st (upd cs i (fun _ => c)) r
    end
  | AOp o :: r => do ' (st, x) <- step e st o; do ' (z, xs) <- mrun e st cs r; Ok (z, x :: xs)
  end.
