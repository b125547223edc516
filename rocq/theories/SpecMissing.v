(** on_missing (C76). *)
From Verif Require Import PyStr Json Base Heap LoadClass Unpickler.

(** The same options with another on_missing. *)
Definition set_missing (p : missing) (o : uopts) : uopts :=
  {| uo_keys := uo_keys o; uo_safe := uo_safe o; uo_v1 := uo_v1 o; uo_missing := p; uo_readonly := uo_readonly o; uo_ctx := uo_ctx o |}.
(** The exceptions on_missing itself can raise. *)
Definition may_raise (p : missing) (e : exn) : Prop :=
  match p with
  | MError => e = EClassNotFound
  | MCall f => exists n, f n = Some e
  | _ => False
  end.
(** What happened apart from warnings about missing classes and calls of on_missing. *)
Definition quiet (l : list event) : list event :=
  filter (fun e => match e with EvWarn _ | EvMissing _ => false | _ => true end) l.
