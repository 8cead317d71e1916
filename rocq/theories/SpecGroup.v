(** Histories that differ in how bindings are grouped into calls of gotcha_wrap and in the order of neighbouring calls. *)
From Verif Require Import Base HashModel SpecHash ElfModel ToolModel CoreModel SpecCore.

(** no function is bound by both calls; main and __libc_start_main count as one function *)
Definition disjoint (l1 l2 : list ubind) : Prop := forall u1 u2, In u1 l1 -> In u2 l2 ->
  ub_name u1 <> ub_name u2 /\ (ub_name u1 = n_main -> ub_name u2 <> n_libc_start_main) /\ (ub_name u2 = n_main -> ub_name u1 <> n_libc_start_main).

Inductive regrouped : list op -> list op -> Prop :=
  | rg_refl ops : regrouped ops ops
  | rg_sym ops ops' : regrouped ops ops' -> regrouped ops' ops
  | rg_trans o1 o2 o3 : regrouped o1 o2 -> regrouped o2 o3 -> regrouped o1 o3
  | rg_split pre l1 l2 t post : regrouped (pre ++ OWrap (l1 ++ l2) t :: post) (pre ++ OWrap l1 t :: OWrap l2 t :: post)
  | rg_swap pre l1 t1 l2 t2 post : disjoint l1 l2 ->
      regrouped (pre ++ OWrap l1 t1 :: OWrap l2 t2 :: post) (pre ++ OWrap l2 t2 :: OWrap l1 t1 :: post).
