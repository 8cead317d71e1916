(** Vocabulary for the statements about tool names given by reference. *)
From Verif Require Import Base ElfModel ToolModel CoreModel RefModel.

(** the history as if every name were copied when given *)
Fixpoint copied (buf : nat -> cstr) (ops : list rop) : list op :=
  match ops with
  | [] => []
  | RWrite b s :: l => copied (fun x => if Nat.eqb x b then s else buf x) l
  | RWrap ubs tool :: l => OWrap ubs (match tool with Some b => Some (buf b) | None => None end) :: copied buf l
  | RSetPriority b v :: l => OSetPriority (buf b) v :: copied buf l
  | RGetPriority b :: l => OGetPriority (buf b) :: copied buf l
  | ROther o :: l => o :: copied buf l
  end.
(** the buffer is given to gotcha_wrap or gotcha_set_priority *)
Definition gives_name (b : nat) (o : rop) : Prop := (exists ubs, o = RWrap ubs (Some b)) \/ (exists v, o = RSetPriority b v).
(** no buffer is written once it has been given as a tool's name *)
Definition names_kept (ops : list rop) : Prop := forall l1 b s l2, ops = l1 ++ RWrite b s :: l2 -> forall o, In o l1 -> ~ gives_name b o.
