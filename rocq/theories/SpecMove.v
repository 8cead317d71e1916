(** Processes that differ only in where the wrappers and the handle variables are. *)
From Verif Require Import Base HashModel ElfModel ToolModel CoreModel SpecRun.

(** [w] gives the new place of each function, [h] that of each handle variable *)
Definition move_bind (w h : Z -> Z) (u : ubind) : ubind := mkUB (ub_name u) (w (ub_wrapper u)) (h (ub_handle u)).
Definition move_op (w h : Z -> Z) (o : op) : op :=
  match o with
  | OWrap ubs t => OWrap (map (move_bind w h) ubs) t
  | OLoad libs mem => OLoad libs (fun x => w (mem x))
  | OUnload keep mem => OUnload keep (fun x => w (mem x))
  | _ => o
  end.
(** GOTCHA's own wrappers and handle variables may be elsewhere too *)
Definition move_env (w h : Z -> Z) (e : env) : env :=
  mkEnv (e_ps e) (e_vdso e) (e_phdrs e) (w (e_w_dlopen e)) (w (e_w_dlsym e)) (w (e_w_libc e)) (w (e_w_main e))
    (h (e_h_dlopen e)) (h (e_h_dlsym e)) (h (e_h_libc e)) (h (e_h_main e)) (e_junk e).
Definition move_ptr (w : Z -> Z) (p : wptr) : wptr := match p with Ptr a => Ptr (w a) | Uninit => Uninit end.
Definition move_event (w : Z -> Z) (ev : pevent) : pevent := match ev with PProtect c => PProtect c | PStore x v => PStore x (w v) end.

(** different ones stay different; the functions the libraries export stay where they are *)
Record moving (e : env) (libs : list lmap) (w h : Z -> Z) : Prop := {
  mv_w : forall a b, w a = w b -> a = b;
  mv_h : forall a b, h a = h b -> a = b;
  mv_exports : forall m n a, In m libs -> exports e m n = Some a -> w a = a }.
