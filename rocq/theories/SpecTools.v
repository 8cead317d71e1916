(** Histories that differ only in which tools act and in how their priorities are set. *)
From Verif Require Import Base HashModel ElfModel ToolModel CoreModel SpecCore SpecRun.
From Coq Require String.
Import String.StringSyntax.
Open Scope string_scope.
Open Scope Z_scope.

(** calls that only concern priorities *)
Definition is_prio (o : op) : bool := match o with OSetPriority _ _ | OGetPriority _ => true | _ => false end.

(** [paired l l' ps]: the same calls of gotcha_wrap, filters and loads in the same order, but the calls of gotcha_wrap may be made
    by other tools, and calls that concern priorities may be added, left out or moved, except that both histories use
    GOTCHA for the first time at the same place.  [ps] are the pairs of tools of corresponding calls, GOTCHA's own tool first.
    Whenever something is wrapped, the tools of this and of the earlier calls have priorities in the same order. *)
Inductive paired : list op -> list op -> list (cstr * cstr) -> Prop :=
| pa_nil : paired [] [] [(of_string "gotcha", of_string "gotcha")]
| pa_both l l' ps o o' : paired l l' ps -> is_prio o = true -> is_prio o' = true -> paired (l ++ [o]) (l' ++ [o']) ps
| pa_left l l' ps o : paired l l' ps -> existsb is_api l = true -> is_prio o = true -> paired (l ++ [o]) l' ps
| pa_right l l' ps o : paired l l' ps -> existsb is_api l' = true -> is_prio o = true -> paired l (l' ++ [o]) ps
| pa_same l l' ps o : paired l l' ps -> is_api o = false -> paired (l ++ [o]) (l' ++ [o]) ps
| pa_wrap l l' ps ubs t t' : paired l l' ps ->
    (forall x x' y y', In (x, x') ((tool_name t, tool_name t') :: ps) -> In (y, y') ((tool_name t, tool_name t') :: ps) ->
       (last_set l x < last_set l y <-> last_set l' x' < last_set l' y')) ->
    paired (l ++ [OWrap ubs t]) (l' ++ [OWrap ubs t']) ((tool_name t, tool_name t') :: ps).

(** the results of the other calls *)
Fixpoint other_results (ops : list op) (rs : list res) : list res :=
  match ops, rs with
  | o :: ops, x :: rs => if is_prio o then other_results ops rs else x :: other_results ops rs
  | _, _ => []
  end.

(** the same memory, log, libraries, bindings, wrappees, handles, tables; only the tools, and which tool a table of bindings
    belongs to, may differ *)
Definition table_data (b : btable) : nat * Z * htable cstr nat * option nat := (bt_start b, bt_size b, bt_hash b, bt_next b).
Record same_effects (st st' : state) : Prop := {
  se_init : s_init st = s_init st';
  se_main : s_main st = s_main st';
  se_l : s_l st = s_l st';
  se_p : s_p st = s_p st';
  se_tables : map table_data (b_tables (s_b st)) = map table_data (b_tables (s_b st'));
  se_all : b_all (s_b st) = b_all (s_b st');
  se_ib : b_ib (s_b st) = b_ib (s_b st');
  se_handles : b_handles (s_b st) = b_handles (s_b st');
  se_fn : b_fn (s_b st) = b_fn (s_b st');
  se_nf : b_nf (s_b st) = b_nf (s_b st') }.
