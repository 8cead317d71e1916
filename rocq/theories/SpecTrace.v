(** Vocabulary for what code outside GOTCHA sees while an operation is at work. *)
From Verif Require Import Base HashModel ElfModel ToolModel CoreModel TraceModel SpecCore.

(** what gotcha_get_wrappee returns at this moment for a handle variable; [None]: the variable is NULL, the call crashes *)
Definition vwrappee (v : vis) (h : Z) : option wptr :=
  match v_handles v h with
  | Some i => Some (v_wrappee v i)
  | None => None
  end.
(** at this moment every wrapper's wrappee is the next wrapper, the innermost one's is [orig] (or not yet initialised) *)
Fixpoint vwired (v : vis) (s : list entry) (orig : option Z) : Prop :=
  match s with
  | [] => True
  | x :: r => vwrappee v (en_handle x) =
                Some (match r with [] => match orig with Some a => Ptr a | None => Uninit end | y :: _ => Ptr (en_wrapper y) end)
              /\ vwired v r orig
  end.

(** what others see after the first [k] stores [evs] of an operation that starts in [st] *)
Definition moment (st : state) (evs : list wevent) (k : nat) : vis := vapplys (firstn k evs) (vis_of st).

(** A call that goes on while GOTCHA is at work, [v k] being what it sees at moment [k]: it enters the wrapper of
    [x] at moment [k], asks for its wrappee then or later, goes on with the wrapper it gets if that is one of
    [s], and so on.  [path]: the wrappers it passes; [p]: where it leaves the wrappers. *)
Inductive call (v : nat -> vis) (s : list entry) : nat -> entry -> list entry -> wptr -> Prop :=
| call_out k k' x p : (k <= k')%nat -> vwrappee (v k') (en_handle x) = Some p ->
    (forall y, In y s -> p <> Ptr (en_wrapper y)) -> call v s k x [x] p
| call_next k k' x y path p : (k <= k')%nat -> vwrappee (v k') (en_handle x) = Some (Ptr (en_wrapper y)) -> In y s ->
    call v s k' y path p -> call v s k x (x :: path) p.
