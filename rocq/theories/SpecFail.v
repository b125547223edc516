(** User code that raises while an object is encoded, before anything inside it is. *)
From Verif Require Import PyStr Tags Json JsonText Base Heap Registry Pickler.
Open Scope nat_scope.

(** Encoding the instance [i] at [l] begins with a call into user code that raises e. *)
Inductive raises_at (w : world) (k : hooks) (l : loc) (i : inst) (e : exn) : Prop :=
| ra_handler hd : reg_lookup (w_sub w) (w_reg w) (i_cls i) (importable_name (w_cls w (i_cls i))) = Some hd ->
    (forall ctx ob, w_hflat w hd ctx l ob = FRaise e) -> raises_at w k l i e
| ra_reduce : reg_lookup (w_sub w) (w_reg w) (i_cls i) (importable_name (w_cls w (i_cls i))) = None ->
    c_reduce (w_cls w (i_cls i)) = true -> k_reduce k l = Exc e -> is_TypeError e = false -> raises_at w k l i e
| ra_newargs_ex : reg_lookup (w_sub w) (w_reg w) (i_cls i) (importable_name (w_cls w (i_cls i))) = None ->
    c_reduce (w_cls w (i_cls i)) = false -> c_newargs_ex (w_cls w (i_cls i)) = true ->
    k_newargs_ex k l = Exc e -> raises_at w k l i e
| ra_newargs : reg_lookup (w_sub w) (w_reg w) (i_cls i) (importable_name (w_cls w (i_cls i))) = None ->
    c_reduce (w_cls w (i_cls i)) = false -> c_newargs_ex (w_cls w (i_cls i)) = false ->
    c_newargs (w_cls w (i_cls i)) = true -> k_newargs k l = Exc e -> raises_at w k l i e
| ra_initargs : reg_lookup (w_sub w) (w_reg w) (i_cls i) (importable_name (w_cls w (i_cls i))) = None ->
    c_reduce (w_cls w (i_cls i)) = false -> c_newargs_ex (w_cls w (i_cls i)) = false ->
    c_newargs (w_cls w (i_cls i)) = false -> c_initargs (w_cls w (i_cls i)) = true ->
    k_initargs k l = Exc e -> raises_at w k l i e
| ra_getstate : reg_lookup (w_sub w) (w_reg w) (i_cls i) (importable_name (w_cls w (i_cls i))) = None ->
    c_reduce (w_cls w (i_cls i)) = false -> c_newargs_ex (w_cls w (i_cls i)) = false ->
    c_newargs (w_cls w (i_cls i)) = false -> c_initargs (w_cls w (i_cls i)) = false ->
    c_getstate (w_cls w (i_cls i)) = true -> k_getstate k l = Exc e -> is_TypeError e = false -> raises_at w k l i e.
