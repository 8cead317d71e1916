(** Vocabulary for the statements about a filter name given by reference. *)
From Verif Require Import Base ElfModel ToolModel CoreModel FilterRef.

(** the history as if the name were copied when given *)
Fixpoint name_copied (buf : nat -> cstr) (ops : list fop) : list op :=
  match ops with
  | [] => []
  | FOp o :: l => o :: name_copied buf l
  | FByName b :: l => OFilter (FName (Some (buf b))) :: name_copied buf l
  | FWrite b s :: l => name_copied (fun x => if Nat.eqb x b then s else buf x) l
  end.
(** the filter is changed *)
Definition changes_filter (o : fop) : Prop := (exists f, o = FOp (OFilter f)) \/ (exists b, o = FByName b).
(** no buffer is written while it is the filter's name *)
Definition name_kept (ops : list fop) : Prop := forall l1 b l2 s l3, ops = l1 ++ FByName b :: l2 ++ FWrite b s :: l3 -> exists o, In o l2 /\ changes_filter o.

(** the history in which every write to the buffer of the filter is a call of gotcha_filter_libraries_by_name with the new
    string; such calls are marked [false].  [cur]: the buffer of the present filter *)
Fixpoint name_read (buf : nat -> cstr) (cur : option nat) (ops : list fop) : list (op * bool) :=
  match ops with
  | [] => []
  | FOp o :: l => (o, true) :: name_read buf (match o with OFilter _ => None | _ => cur end) l
  | FByName b :: l => (OFilter (FName (Some (buf b))), true) :: name_read buf (Some b) l
  | FWrite b s :: l =>
    let buf' := fun x => if Nat.eqb x b then s else buf x in
    match cur with
    | Some c => if Nat.eqb c b then (OFilter (FName (Some s)), false) :: name_read buf' cur l else name_read buf' cur l
    | None => name_read buf' cur l
    end
  end.
(** the results of the operations marked [true] *)
Fixpoint results_of (l : list (op * bool)) (rs : list res) : list res :=
  match l, rs with
  | (_, true) :: l, x :: rs => x :: results_of l rs
  | (_, false) :: l, _ :: rs => results_of l rs
  | _, _ => []
  end.
