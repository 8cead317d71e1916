(** Histories that differ only in what memory holds. *)
From Verif Require Import Base HashModel ElfModel ToolModel CoreModel.

(** [Q x v v']: at the word [x], memory may hold [v] in one history and [v'] in the other.
    The same operations; what the loader leaves in memory may differ within [Q]. *)
Definition same_load (Q : Z -> Z -> Z -> Prop) (o o' : op) : Prop :=
  match o, o' with
  | OLoad libs mem, OLoad libs' mem' => libs = libs' /\ forall x, Q x (mem x) (mem' x)
  | OUnload keep mem, OUnload keep' mem' => keep = keep' /\ forall x, Q x (mem x) (mem' x)
  | _, _ => o = o'
  end.

(** everything but memory is the same, and memory differs within [Q] *)
Record same_but_memory (Q : Z -> Z -> Z -> Prop) (st st' : state) : Prop := {
  sm_init : s_init st = s_init st';
  sm_main : s_main st = s_main st';
  sm_b : s_b st = s_b st';
  sm_l : s_l st = s_l st';
  sm_maps : p_maps (s_p st) = p_maps (s_p st');
  sm_log : p_log (s_p st) = p_log (s_p st');
  sm_filter : p_filter (s_p st) = p_filter (s_p st');
  sm_mem : forall x, Q x (p_mem (s_p st) x) (p_mem (s_p st') x) }.
