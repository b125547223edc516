(** handle_readonly of decode (C75). *)
From Verif Require Import PyStr Json Base Heap LoadClass Unpickler.

(** The same options with handle_readonly=b. *)
Definition set_readonly (b : bool) (o : uopts) : uopts :=
  {| uo_keys := uo_keys o; uo_safe := uo_safe o; uo_v1 := uo_v1 o; uo_missing := uo_missing o; uo_readonly := b; uo_ctx := uo_ctx o |}.
(** A subclass of int or str with empty [__slots__], such as Django's SafeString. *)
Definition unwritable_class (w : world) : Prop := exists c, c_slots (w_cls w c) = Some [] /\ c_intstr (w_cls w c) = true.
