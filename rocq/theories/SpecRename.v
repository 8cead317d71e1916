(** Histories that differ only in the names of the tools and in the values of the priorities. *)
From Verif Require Import Base HashModel ElfModel ToolModel CoreModel.
From Coq Require String.
Import String.StringSyntax.
Open Scope string_scope.
Open Scope Z_scope.

(** another name for each tool; the two names GOTCHA gives a meaning stay *)
Record renaming (r : cstr -> cstr) : Prop := {
  rn_inj : forall s t, r s = r t -> s = t;
  rn_own : r (of_string "gotcha") = of_string "gotcha";
  rn_none : r (of_string "[UNSPECIFIED]") = of_string "[UNSPECIFIED]" }.
(** another value for each priority, in the same order; the default stays *)
Record rescaling (f : Z -> Z) : Prop := {
  rs_order : forall v w, v < w -> f v < f w;
  rs_default : f (-1) = -1 }.

Definition rename_op (r : cstr -> cstr) (f : Z -> Z) (o : op) : op :=
  match o with
  | OWrap ubs t => OWrap ubs (option_map r t)
  | OSetPriority t v => OSetPriority (r t) (f v)
  | OGetPriority t => OGetPriority (r t)
  | _ => o
  end.
Definition rename_res (f : Z -> Z) (x : res) : res :=
  match x with RPrio c (Some v) => RPrio c (Some (f v)) | _ => x end.

(** the same memory, log, libraries, bindings, wrappees, handles, tables; only the tools may differ *)
Record same_but_tools (st st' : state) : Prop := {
  sb_init : s_init st = s_init st';
  sb_main : s_main st = s_main st';
  sb_l : s_l st = s_l st';
  sb_p : s_p st = s_p st';
  sb_tables : b_tables (s_b st) = b_tables (s_b st');
  sb_all : b_all (s_b st) = b_all (s_b st');
  sb_ib : b_ib (s_b st) = b_ib (s_b st');
  sb_handles : b_handles (s_b st) = b_handles (s_b st');
  sb_fn : b_fn (s_b st) = b_fn (s_b st');
  sb_nf : b_nf (s_b st) = b_nf (s_b st') }.
