(** Which classes a registration concerns (C73). *)
From Verif Require Import PyStr Tags Json Base Heap Registry RegistryProofs LoadClass Unpickler.
Open Scope nat_scope.

(** The same program with another table of handlers. *)
Definition with_registry (w : world) (r : registry) : world :=
  {| w_cls := w_cls w; w_fun := w_fun w; w_mod := w_mod w; w_sub := w_sub w; w_import := w_import w;
     w_import_top := w_import_top w; w_sysmod := w_sysmod w; w_getattr := w_getattr w; w_new := w_new w; w_call := w_call w;
     w_blank := w_blank w; w_ext_callable := w_ext_callable w; w_setstate := w_setstate w; w_setter := w_setter w;
     w_eval := w_eval w; w_reg := r; w_hflat := w_hflat w; w_hrest := w_hrest w;
     w_hctx_flat := w_hctx_flat w; w_hctx_rest := w_hctx_rest w;
     w_clone := w_clone w; w_nonetype := w_nonetype w |}.

(** Further calls of register and unregister. *)
Definition then_ops (w : world) (ops : list rop) (r : registry) : registry :=
  fold_left (fun r op => match op with
                         | OReg c h b => reg_register (w_cls w) r c h b
                         | OUnreg c => reg_unregister (w_cls w) r c
                         end) ops r.
Definition op_class (op : rop) : nat := match op with OReg c _ _ => c | OUnreg c => c end.
(** A call about another class: neither the class [d] itself, nor one of the name [n], nor (unless
    base=False) a superclass. *)
Definition elsewhere (w : world) (op : rop) (d : nat) (n : pystr) : Prop :=
  d <> op_class op /\ n <> importable_name (w_cls w (op_class op)) /\
  match op with OReg c _ false => True | _ => w_sub w d (op_class op) = false end.

(** The classes passed to decode. *)
Definition classes_of (w : world) (cl : option carg) : list (pystr * val) :=
  match cl with Some c => register_classes w c [] | None => [] end.
