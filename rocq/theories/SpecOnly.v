(** Histories that are the same as far as one function is concerned. *)
From Verif Require Import Base HashModel SpecHash ElfModel ToolModel CoreModel SpecCore.

(** the bindings of [n] among those of a call *)
Definition of_name (n : cstr) (ubs : list ubind) : list ubind := filter (fun u => cstr_eqb (ub_name u) n) ubs.

(** calls of gotcha_wrap by the same tool with the same bindings of [n]; the other bindings, and what the loader leaves in memory, may differ *)
Definition same_op (n : cstr) (o o' : op) : Prop :=
  match o, o' with
  | OWrap ubs t, OWrap ubs' t' => t = t' /\ of_name n ubs = of_name n ubs'
  | OLoad libs _, OLoad libs' _ => libs = libs'
  | OUnload keep _, OUnload keep' _ => keep = keep'
  | OSetPriority t v, OSetPriority t' v' => t = t' /\ v = v'
  | OGetPriority t, OGetPriority t' => t = t'
  | OFilter f, OFilter f' => f = f'
  | OFinish, OFinish => True
  | _, _ => False
  end.
Definition same_for (n : cstr) (ops ops' : list op) : Prop := Forall2 (same_op n) ops ops'.

(** operations without gotcha_wrap, and without the work GOTCHA does at the end of a dlopen *)
Definition idle (o : op) : Prop := match o with OWrap _ _ | OFinish => False | _ => True end.
