(** Options of encode that make no difference (C77). *)
From Verif Require Import PyStr Tags Json JsonText Base Heap Pickler.
Open Scope nat_scope.

(** The same options with other values of keys and warn. *)
Definition set_kw (keys warn : bool) (o : popts) : popts :=
  {| po_unpicklable := po_unpicklable o; po_make_refs := po_make_refs o; po_keys := keys; po_max_depth := po_max_depth o;
     po_warn := warn; po_max_iter := po_max_iter o; po_b85 := po_b85 o; po_fail_safe := po_fail_safe o; po_props := po_props o;
     po_readonly := po_readonly o; po_root := po_root o; po_sort := po_sort o; po_ctx := po_ctx o; po_numeric := po_numeric o |}.

(** A key that is a string, no tag name and does not look like an escaped key. *)
Definition usual_key (key : val) : Prop :=
  exists s, key = VStr s /\ ~ In s RESERVED /\ (forall r, s <> u "json://" ++ r).
Definition usual_items (d : list (val * val)) : Prop := forall key v, In (key, v) d -> usual_key key.
(** All dicts, namespaces and dict subclasses among these objects have such keys only. *)
Definition usual_obj (ob : obj) : Prop :=
  match ob with
  | ODict d => usual_items d
  | OInst i => usual_items (i_items i)
  | _ => True
  end.
